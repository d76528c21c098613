(** Errors while a database is read for its signatures (C88). *)
From Coq Require Import NArith ZArith List Bool Arith Lia.
From Verif Require Import Base ModelFile ModelWriter ModelDatabase ModelVerify ModelReadIo SpecReadIo LemmasReadIo.
Import ListNotations.
Open Scope N_scope.

(** Whatever fails, whatever the file is: a database that is found to be signed is signed. *)
Theorem C88_verified : forall fails d k fuel, verify_io fails d k fuel = Ok 0%Z -> verify d k = Ok 0%Z.
Proof. exact verified. Qed.
Print Assumptions C88_verified.

(** Without failures the result is that of C36 and C37. *)
Theorem C88_agree : forall fails d k fuel, never fails -> (length (d_file d) < fuel)%nat ->
  verify_io fails d k fuel = verify d k.
Proof. exact agree. Qed.
Print Assumptions C88_agree.

(** Failures that stop do not change the result, if the digest takes all it is fed. *)
Theorem C88_retried : forall fails d k, now_and_then fails -> (forall j, vf_update k j = 1%Z) ->
  exists least, forall fuel, (least <= fuel)%nat -> verify_io fails d k fuel = verify d k.
Proof. exact retried. Qed.
Print Assumptions C88_retried.

(** A file that cannot be read any more, e.g. on a medium that is broken: loc_database_verify does not return,
    it looks for the end of the file only (database.c:628). *)
Theorem C88_endless_refuted : forall fails d k fuel, for_ever fails ->
  vf_key k = true -> vf_init k = 1%Z -> (forall j, vf_update k j = 1%Z) ->
  MAGIC_SIZE + HEADER_SIZE <= flen (d_file d) -> verify_io fails d k fuel = Fuel.
Proof. exact verify_endless. Qed.
Print Assumptions C88_endless_refuted.

(** Signing: if it is successful, the signature is that of the whole file; and no read failed, unless OpenSSL
    returned 0 for an error (C38). *)
Theorem C88_signed : forall fails k h f sig fuel s',
  create_signature_io fails k h f sig fuel = Ok (0%Z, s') -> (length f < fuel)%nat ->
  create_signature k h f sig = Ok (0%Z, s') /\
  (ev_init k = 1%Z -> ev_update k 0 = 1%Z -> ev_update k 1 = 1%Z ->
   fails 0%nat = None /\ forall j, (1 <= j <= length (read_chunks (skipn (N.to_nat (MAGIC_SIZE + HEADER_SIZE)) f)))%nat -> fails j = None).
Proof. exact signed. Qed.
Print Assumptions C88_signed.

Theorem C88_sign_agree : forall fails k h f sig fuel, never fails -> (length f < fuel)%nat ->
  create_signature_io fails k h f sig fuel = create_signature k h f sig.
Proof. exact sign_same. Qed.
Print Assumptions C88_sign_agree.

(** ** Cases *)
(** A file with a first signature of one octet, three octets behind the header *)
Definition file0 : list N := MAGIC ++ [1] ++ repeat 0 60 ++ [0; 1; 0; 0] ++ [9] ++ repeat 0 (N.to_nat (HEADER_SIZE - 65)) ++ [1; 2; 3].
Definition none : nat -> option nat := fun _ => None.
(** The third and fourth fread fail, after two octets and at once *)
Definition some_fail : nat -> option nat := fun i => match i with 2%nat => Some 2%nat | 3%nat => Some 0%nat | _ => None end.
Definition all_fail : nat -> option nat := fun i => match i with 0%nat | 1%nat => None | _ => Some 0%nat end.
(** A key for which a signature is valid if it is [9] and the octets that were fed end with 1, 2, 3 *)
Definition key0 : verifier := mkVerifier true 1 (fun _ => 1%Z)
  (fun _ m s => match s, rev m with [9], 3 :: 2 :: 1 :: _ => 1%Z | _, _ => 0%Z end).
Definition pen0 : evp := mkEvp 1 (fun _ => 1%Z) (fun m => match rev m with 3 :: _ => (1%Z, [9]) | _ => (0%Z, []) end).

Example C88_case : exists d, db_open file0 = Ok d /\ d_file d = file0 /\
  never none /\ now_and_then some_fail /\ for_ever all_fail /\
  MAGIC_SIZE + HEADER_SIZE <= flen file0 /\
  verify d key0 = Ok 0%Z /\ verify_io none d key0 (N.to_nat 5000) = Ok 0%Z /\
  verify_io some_fail d key0 10 = Ok 0%Z /\ verify_io all_fail d key0 10 = Fuel.
Proof.
  destruct (db_open file0) as [d| | |] eqn:O.
  - exists d. assert (D : d = match db_open file0 with Ok d => d | _ => d end) by now rewrite O.
    split; [reflexivity|].
    split; [rewrite D; vm_compute; reflexivity|].
    split; [intros i; reflexivity|].
    split; [split; [reflexivity|split; [reflexivity|exists 4%nat; intros [|[|[|[|i]]]] H; try reflexivity; lia]]|].
    split; [split; [reflexivity|split; [reflexivity|intros [|[|i]] H; [lia|lia|discriminate]]]|].
    split; [vm_compute; discriminate|].
    split; [rewrite D; vm_compute; reflexivity|].
    split; [rewrite D; vm_compute; reflexivity|].
    split; [rewrite D; vm_compute; reflexivity|].
    rewrite D; vm_compute; reflexivity.
  - exfalso. revert O. vm_compute. discriminate.
  - exfalso. revert O. vm_compute. discriminate.
  - exfalso. revert O. vm_compute. discriminate.
Qed.
Example C88_sign_case : (length file0 < N.to_nat 5000)%nat /\
  match create_signature_io none pen0 [7] file0 ([], 0) (N.to_nat 5000) with Ok (0%Z, ([9], 1)) => true | _ => false end = true /\
  match create_signature_io some_fail pen0 [7] file0 ([], 0) (N.to_nat 5000) with Ok (0%Z, _) => true | _ => false end = true /\
  match create_signature_io (fun i => if (i =? 1)%nat then Some 2%nat else None) pen0 [7] file0 ([], 0) (N.to_nat 5000) with Ok (1%Z, _) => true | _ => false end = true.
Proof.
  split; [apply Nat.ltb_lt; vm_compute; reflexivity|]. split; [vm_compute; reflexivity|].
  split; [vm_compute; reflexivity|]. vm_compute. reflexivity.
Qed.
