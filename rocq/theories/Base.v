(** Common definitions of the model: C outcomes, octet lists, big endian
    numbers. Nothing in this file models a particular function of libloc. *)
From Coq Require Import NArith ZArith List Bool Arith Lia.
Import ListNotations.
Open Scope N_scope.

(** Outcome of a C function call.
    [Ok v]   the call returns and produces [v];
    [Err c]  the call returns and reports the error code [c];
    [UB]     undefined behaviour (out-of-bounds access, use after free, ...);
    [Fuel]   the bound given to a loop of the model was too small (no C
             counterpart; theorems exclude it). *)
Inductive outcome (A : Type) : Type :=
| Ok (v : A)
| Err (code : Z)
| UB
| Fuel.
Arguments Ok {A} v.
Arguments Err {A} code.
Arguments UB {A}.
Arguments Fuel {A}.

Definition bind {A B} (x : outcome A) (f : A -> outcome B) : outcome B :=
  match x with
  | Ok v => f v
  | Err c => Err c
  | UB => UB
  | Fuel => Fuel
  end.

Notation "'do' x <- m ; f" := (bind m (fun x => f))
  (at level 200, x pattern, m at level 100, f at level 200).

(** errno style constants used by the code (Linux numbers). *)
Definition EINVAL : Z := 22.
Definition EBUSY : Z := 16.
Definition ERANGE : Z := 34.

(** Octets are numbers below 256. *)
Definition octet_ok (b : N) : Prop := b < 256.

(** The value of a list of octets read as a big endian number. *)
Fixpoint be (l : list N) : N :=
  match l with
  | [] => 0
  | x :: l' => x * 256 ^ N.of_nat (length l') + be l'
  end.

(** [n] as [k] big endian octets (truncating, as a store to a k-octet integer). *)
Fixpoint to_be (k : nat) (n : N) : list N :=
  match k with
  | O => []
  | S k' => (n / 256 ^ N.of_nat k') mod 256 :: to_be k' n
  end.

(** Replace the element at position [i] (no change if out of range). *)
Fixpoint upd {A} (l : list A) (i : nat) (v : A) : list A :=
  match l, i with
  | [], _ => []
  | _ :: l', O => v :: l'
  | x :: l', S i' => x :: upd l' i' v
  end.
