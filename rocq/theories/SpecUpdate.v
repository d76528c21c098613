(** Specification vocabulary for updates. *)
From Coq Require Import NArith ZArith List.
From Verif Require Import Base ModelDatabase ModelVerify ModelUpdate SpecResolv.
Open Scope Z_scope.

(** The database that is installed, if there is one that can be opened *)
Definition has (i : installed) (d : db) : Prop := exists f, i = File f /\ db_open f = Ok d.

(** A database that was verified with the key and is as recent as [t] demands *)
Definition acceptable (k : verifier) (t : option N) (d : db) : Prop :=
  verify d k = Ok 0 /\ forall v, t = Some v -> v <> 0%N -> (v <= d_created_at d)%N.

(** The times that fit into a time_t *)
Definition is_time (v : N) : Prop := (v < 2 ^ 63)%N.

(** The day of the week; January 1st, 1970 was a Thursday. *)
Definition weekday (t : Z) : list N := nth (Z.to_nat ((t / 86400 + 3) mod 7)) SpecResolv.day_names nil.
