(** What the theorems about reading from a file that fails are about (C88). *)
From Coq Require Import NArith ZArith List Bool Arith.
From Verif Require Import Base.
Import ListNotations.
Open Scope nat_scope.

Definition never (fails : nat -> option nat) : Prop := forall i, fails i = None.
(** The magic and the header are read; afterwards there may be failures, but not from some call on *)
Definition now_and_then (fails : nat -> option nat) : Prop :=
  fails 0 = None /\ fails 1 = None /\ exists m, forall i, m <= i -> fails i = None.
(** The magic and the header are read and nothing afterwards *)
Definition for_ever (fails : nat -> option nat) : Prop :=
  fails 0 = None /\ fails 1 = None /\ forall i, 2 <= i -> fails i <> None.
