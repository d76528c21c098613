(** Specification vocabulary for AS and country lists and country names. *)
From Coq Require Import NArith ZArith List Bool Arith Sorting.Sorted.
From Verif Require Import Base ModelCountryCode ModelObjects.
Import ListNotations.
Open Scope N_scope.

(** Two letters as one number, the first letter counting more. *)
Definition code_number (c : cc2) : N := 256 * fst c + snd c.
(** What country objects always have: a code of two octets other than NUL. *)
Definition two_letters (c : cc2) : Prop := 0 < fst c < 256 /\ 0 < snd c < 256.

(** The elements with a key that did not occur before, in order. *)
Fixpoint first_occurrences {A} (key : A -> N) (seen : list N) (l : list A) : list A :=
  match l with
  | [] => []
  | x :: l' =>
      if existsb (N.eqb (key x)) seen then first_occurrences key seen l'
      else x :: first_occurrences key (key x :: seen) l'
  end.

(** Appending one after the other. *)
Fixpoint append_all {A} (cmp : A -> A -> Z) (l : olist A) (xs : list A) : outcome (olist A) :=
  match xs with
  | [] => Ok l
  | x :: xs' => do l <- olist_append cmp l x; append_all cmp l xs'
  end.

Definition ascending {A} (key : A -> N) (l : list A) : Prop := StronglySorted (fun x y => key x < key y) l.

(** Calls of loc_country_set_name one after the other. *)
Fixpoint set_names (c : country) (names : list (option cstr)) : outcome country :=
  match names with
  | [] => Ok c
  | s :: names' => do c <- country_set_name c s; set_names c names'
  end.
