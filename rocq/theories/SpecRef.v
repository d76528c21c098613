(** Use of references by a caller who owns them. *)
From Coq Require Import ZArith List Bool Arith.
From Verif Require Import Base ModelRef.
Import ListNotations.
Open Scope nat_scope.

(** What a caller may use: what they own and what objects hold that they may use. *)
Inductive reach (s : rstate) : nat -> Prop :=
| r_own p : In p (rs_own s) -> reach s p
| r_slot x c p : reach s x -> nth_error (rs_heap s) x = Some c -> In p (slots c) -> reach s p.

(** The number of references to [p]: those of the caller and those of objects that
    have not been freed. *)
Fixpoint held (h : heap) (p : nat) : nat :=
  match h with
  | [] => 0
  | c :: h' => (if (frees c =? 0)%nat then count_occ Nat.eq_dec (slots c) p else 0) + held h' p
  end.
Definition references (s : rstate) (p : nat) : nat := count_occ Nat.eq_dec (rs_own s) p + held (rs_heap s) p.
Definition few (s : rstate) (p : nat) : Prop := (Z.of_nat (references s p) < INT_MAX)%Z.

(** Kinds of objects are ordered: those of rank r hold only objects of lower rank
    (an enumerator holds a database, a list holds networks, a network holds the context,
    a node of the tree its children). [rank] is given for each object that will be created. *)
Definition lawful_op (rank : nat -> nat) (s : rstate) (o : rop) : Prop :=
  match o with
  | New => True
  | Ref p => reach s p /\ few s p
  | Unref p => In p (rs_own s)
  | RefSlot x i => reach s x /\ forall c p, nth_error (rs_heap s) x = Some c -> nth_error (slots c) i = Some p -> few s p
  | Give x p i => reach s x /\ In p (rs_own s) /\ rank p < rank x
  | Take x i => reach s x
  end.
Fixpoint lawful (rank : nat -> nat) (fuel : nat) (s : rstate) (os : list rop) : Prop :=
  match os with
  | [] => True
  | o :: os' => lawful_op rank s o /\ forall s', do_op fuel s o = Ok s' -> lawful rank fuel s' os'
  end.
Definition nothing : rstate := mkRS [] [].
