(** Specification of signatures in terms of the octets of a file *)
From Coq Require Import NArith ZArith List Bool Arith.
From Verif Require Import Base.
Import ListNotations.
Open Scope N_scope.

(** Octets 68 to 4167 of a database are the lengths of the two signatures and the
    signatures; everything else is what is signed. *)
Definition signed_part (f : list N) : list N :=
  firstn 68 f ++ repeat 0 (N.to_nat 4100) ++ skipn (N.to_nat 4168) f.

(** The signatures of a file: the length as a number of two octets and the octets. *)
Definition signature1 (f : list N) : list N := firstn (N.to_nat (be (firstn 2 (skipn 68 f)))) (skipn 72 f).
Definition signature2 (f : list N) : list N := firstn (N.to_nat (be (firstn 2 (skipn 70 f)))) (skipn (N.to_nat 2120) f).

(** How many times the library is fed: the magic bytes, the header, and blocks of
    64 KiB until one is not full. *)
Definition updates (f : list N) : nat := 2 + N.to_nat ((N.of_nat (length f) - 4200) / 65536) + 1.

(** Signing failed, but the library returned 0 at a place where the writer takes it
    for success: when initialising, or when feeding the magic bytes or the header. *)
Definition unreported (init : Z) (update : nat -> Z) : Prop :=
  init = 0%Z \/ (init = 1%Z /\ update 0%nat = 0%Z) \/ (init = 1%Z /\ update 0%nat = 1%Z /\ update 1%nat = 0%Z).
