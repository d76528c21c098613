(** C27, C28: the string pool. *)
From Coq Require Import NArith ZArith List Bool Arith Lia.
From Verif Require Import Base ModelCountryCode ModelStringPool SpecStringPool LemmasStringPool.
Import ListNotations.
Open Scope N_scope.

(** After any history of additions that did not overflow, every offset that was
    ever returned refers to its string, and equal non-empty strings have one
    offset. *)
Theorem C27_pool_references : forall ss p offs, Forall is_cstr ss -> add_all pool_new ss = Ok (p, offs) ->
  length offs = length ss /\
  (forall i s off, nth_error ss i = Some s -> nth_error offs i = Some off ->
     holds (sp_data p) off s /\ pool_get p off = Some off /\ read_cstr (sp_data p) off = Ok s) /\
  (forall i j s o1 o2, s <> [] -> nth_error ss i = Some s -> nth_error ss j = Some s ->
     nth_error offs i = Some o1 -> nth_error offs j = Some o2 -> o1 = o2).
Proof. exact add_all_refs. Qed.
Print Assumptions C27_pool_references.

Example C27_case : add_all pool_new [[65; 66]; []; [67]; [65; 66]; []] =
  Ok (mkPool [65; 66; 0; 0; 67; 0; 0] block_size, [0; 3; 4; 0; 6]%nat).
Proof. reflexivity. Qed.

(** Missing from C28: strings of 512 KiB and more. *)
Theorem C28_pool_short_strings_partial : forall ss, Forall is_cstr ss ->
  Forall (fun s => N.of_nat (length s) < block_size) ss ->
  exists p offs, add_all pool_new ss = Ok (p, offs) /\ N.of_nat (length (sp_data p)) <= sp_size p.
Proof. exact add_all_short. Qed.
Print Assumptions C28_pool_short_strings_partial.

(** A string of 512 KiB overflows the block of a new pool. *)
Theorem C28_pool_overflow_refuted : exists s, is_cstr s /\ pool_add pool_new (Some s) = UB.
Proof. exact long_overflows. Qed.
Print Assumptions C28_pool_overflow_refuted.

(** More precisely: every new string that needs more than one block does. *)
Theorem C28_pool_overflow_condition : forall ss p offs s,
  Forall is_cstr ss -> add_all pool_new ss = Ok (p, offs) -> is_cstr s -> ~ In s ss ->
  sp_size p + block_size < N.of_nat (length (sp_data p)) + (N.of_nat (length s) + 1) -> pool_add p (Some s) = UB.
Proof. exact add_all_long. Qed.
Print Assumptions C28_pool_overflow_condition.
