(** Signatures (C36, C37, C38). [key1], [key2] of the writer and [k] of the reader say
    what the functions of OpenSSL return; nothing is assumed about them. *)
From Coq Require Import NArith ZArith List Bool Arith Lia.
From Verif Require Import Base ModelAddress ModelCountryCode ModelNetwork ModelTree ModelStringPool ModelObjects ModelFile ModelWriter
  ModelDatabase ModelVerify SpecNetwork SpecTree SpecWriter SpecVerify LemmasTreeProps LemmasDbProps LemmasVerify PropsDatabase PropsLookup.
Import ListNotations.
Open Scope N_scope.

(** ** C36 *)
(** The writer: every signature in the file was made from the signed part of the
    file, unless an error has not been seen (C38). *)
Theorem C36_signed : forall ctz0 held key1 key2 os w x w' f,
  Forall call_ok os -> program ctz0 held key1 key2 os = Ok w ->
  write_to ctz0 held key1 key2 w x = Ok (0%Z, w', f) ->
  (forall k, key1 = Some k -> ~ unreported (ev_init k) (ev_update k) -> ev_final k (signed_part f) = (1%Z, signature1 f)) /\
  (forall k, key2 = Some k -> ~ unreported (ev_init k) (ev_update k) -> ev_final k (signed_part f) = (1%Z, signature2 f)).
Proof. exact signed_stream. Qed.
Print Assumptions C36_signed.

(** The reader (see C37): with a library that does not fail otherwise, the result is
    what it says for the signed part of the file and the signatures in it. *)
Theorem C36_verified : forall f d k, db_open f = Ok d ->
  vf_key k = true -> vf_init k = 1%Z -> (forall i, vf_update k i = 1%Z) ->
  signature1 f <> [] -> signature2 f = [] ->
  (verify d k = Ok 0%Z <-> vf_final k 0 (signed_part f) (signature1 f) = 1%Z).
Proof. exact verified_stream. Qed.
Print Assumptions C36_verified.

(** The signed part is everything but the fields of the signatures. *)
Theorem C36_signed_part : forall f g, 4168 <= N.of_nat (length f) -> 4168 <= N.of_nat (length g) ->
  (signed_part f = signed_part g <->
   length f = length g /\ forall i, (i < 68)%nat \/ 4168 <= N.of_nat i -> nth_error f i = nth_error g i).
Proof. exact signed_part_iff. Qed.
Print Assumptions C36_signed_part.

(** Both together: a database that was signed with a key is verified with it. *)
Theorem C36_round_trip : forall ctz0 held k1 key2 os w x w' f d k,
  Forall call_ok os -> program ctz0 held (Some k1) key2 os = Ok w ->
  write_to ctz0 held (Some k1) key2 w x = Ok (0%Z, w', f) -> db_open f = Ok d ->
  ~ unreported (ev_init k1) (ev_update k1) ->
  (forall m s, ev_final k1 m = (1%Z, s) -> s <> [] /\ vf_final k 0 m s = 1%Z) ->
  vf_key k = true -> vf_init k = 1%Z -> (forall i, vf_update k i = 1%Z) ->
  (forall m s, vf_final k 1 m s = 0%Z \/ vf_final k 1 m s = 1%Z) ->
  verify d k = Ok 0%Z.
Proof. exact end_to_end. Qed.
Print Assumptions C36_round_trip.

(** A toy scheme: the signature is the sum of all octets (modulo 251) and the length. *)
Definition sum (m : list N) : N := fold_left N.add m 0 mod 251.
Definition toy : evp := mkEvp 1 (fun _ => 1%Z) (fun m => (1%Z, [sum m; N.of_nat (length m) mod 256])).
Definition toy_check : verifier :=
  mkVerifier true 1 (fun _ => 1%Z) (fun _ m s => if cstr_eqb s [sum m; N.of_nat (length m) mod 256] then 1%Z else 0%Z).
Example C36_case : Forall call_ok calls0 /\ ~ unreported (ev_init toy) (ev_update toy) /\
  exists w w' f d, program 0 (fun _ => true) (Some toy) (Some toy) calls0 = Ok w /\
    write_to 0 (fun _ => true) (Some toy) (Some toy) w save0 = Ok (0%Z, w', f) /\
    N.of_nat (length f) < 2 ^ 32 /\ s_now save0 < 2 ^ 64 /\ db_open f = Ok d /\
    match verify d toy_check with Ok 0%Z => true | _ => false end = true.
Proof.
  split; [calls|]. split; [intros [H|[[_ H]|[_ [_ H]]]]; discriminate|]. apply a_case. vm_compute. reflexivity.
Qed.

(** ** C37 *)
Theorem C37_verify : forall f d k, db_open f = Ok d ->
  let m := signed_part f in
  let s1 := signature1 f in let s2 := signature2 f in
  let second := match s1 with [] => 0%nat | _ => 1%nat end in
  verify d k = Ok 0%Z <->
  vf_key k = true /\ vf_init k = 1%Z /\ (forall i, (i < updates f)%nat -> vf_update k i = 1%Z) /\
  (s1 <> [] -> vf_final k 0 m s1 = 0%Z \/ vf_final k 0 m s1 = 1%Z) /\
  (s2 <> [] -> vf_final k second m s2 = 0%Z \/ vf_final k second m s2 = 1%Z) /\
  ((s1 <> [] /\ vf_final k 0 m s1 = 1%Z) \/ (s2 <> [] /\ vf_final k second m s2 = 1%Z)).
Proof. exact verify_iff. Qed.
Print Assumptions C37_verify.

(** It always returns. *)
Theorem C37_total : forall f d k, db_open f = Ok d ->
  verify d k = Ok 0%Z \/ verify d k = Ok 1%Z \/ verify d k = Ok (-1)%Z.
Proof. exact verify_total. Qed.
Print Assumptions C37_total.

(** A database with two signatures of which only the second one is valid, and the
    same with an error in the first one *)
Definition bad_first (r : Z) : verifier := mkVerifier true 1 (fun _ => 1%Z) (fun i _ _ => if (i =? 0)%nat then r else 1%Z).
Example C37_case :
  exists w w' f d, program 0 (fun _ => true) (Some toy) (Some toy) calls0 = Ok w /\
    write_to 0 (fun _ => true) (Some toy) (Some toy) w save0 = Ok (0%Z, w', f) /\
    N.of_nat (length f) < 2 ^ 32 /\ s_now save0 < 2 ^ 64 /\ db_open f = Ok d /\
    (match verify d (bad_first 0) with Ok 0%Z => true | _ => false end &&
     match verify d (bad_first (-1)) with Ok (-1)%Z => true | _ => false end)%bool = true.
Proof. apply a_case. vm_compute. reflexivity. Qed.

(** ** C38 *)
(** Partial: if writing returns 0, then the signatures have been made, or the library
    returned 0 when it was initialised or fed the magic bytes or the header. *)
Theorem C38_reported_partial : forall ctz0 held key1 key2 os w x w' f,
  Forall call_ok os -> program ctz0 held key1 key2 os = Ok w ->
  write_to ctz0 held key1 key2 w x = Ok (0%Z, w', f) ->
  forall k, key1 = Some k \/ key2 = Some k ->
  (ev_init k = 1%Z /\ (forall i, (i < updates f)%nat -> ev_update k i = 1%Z) /\ exists s, ev_final k (signed_part f) = (1%Z, s)) \/
  unreported (ev_init k) (ev_update k).
Proof. exact signed_reported. Qed.
Print Assumptions C38_reported_partial.

(** C38 is false: initialising failed, 0 is returned, and 2048 octets of nothing are
    written as the signature. *)
Theorem C38_reported_refuted : exists k os x,
  Forall call_ok os /\ ev_init k = 0%Z /\
  exists w w' f d, program 0 (fun _ => true) (Some k) None os = Ok w /\
    write_to 0 (fun _ => true) (Some k) None w x = Ok (0%Z, w', f) /\
    N.of_nat (length f) < 2 ^ 32 /\ s_now x < 2 ^ 64 /\ db_open f = Ok d /\
    (snd (d_sig1 d) =? 2048) = true.
Proof.
  exists (mkEvp 0 (fun _ => 1%Z) (fun _ => (1%Z, []))), calls0, save0. split; [calls|]. split; [reflexivity|].
  apply a_case. vm_compute. reflexivity.
Qed.
Print Assumptions C38_reported_refuted.

(** Other errors are reported. *)
Example C38_case :
  match program 0 (fun _ => true) (Some (mkEvp 1 (fun i => if (i =? 2)%nat then 0%Z else 1%Z) (fun _ => (1%Z, [])))) None calls0 with
  | Ok w => match write_to 0 (fun _ => true) (Some (mkEvp 1 (fun i => if (i =? 2)%nat then 0%Z else 1%Z) (fun _ => (1%Z, [])))) None w save0 with
            | Ok (r, _, _) => (r =? -1)%Z
            | _ => false
            end
  | _ => false
  end = true.
Proof. vm_compute. reflexivity. Qed.
