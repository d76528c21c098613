(** C64, C65: updating the database, and the text of its version.

    [t] is the time from DNS (None if there is none), [ms] what the mirrors do,
    [shown] which times gmtime and strftime accept, [moved] whether the file could
    be moved, [ve] whether an exception is a ValueError, [enoent] whether errno is
    ENOENT after a file could not be opened as a database. The theorems hold for
    all of them. *)
From Coq Require Import String.
From Coq Require Import NArith ZArith List Bool Arith Lia.
From Verif Require Import Base ModelCountryCode ModelText SpecText ModelStringPool ModelFile ModelTree ModelWriter ModelDatabase ModelVerify ModelResolv ModelDownload SpecDownload
  LemmasDownload SpecResolv LemmasResolv LemmasResolvDate LemmasResolvReply ModelUpdate SpecUpdate LemmasUpdate LemmasGmtime LemmasUpdateDb
  PropsResolv SpecWriter LemmasDbProps PropsDatabase.
Import ListNotations.
Open Scope Z_scope.

(** Whatever the mirrors send, the installed file is replaced only by a database that
    was verified with the key and is as recent as DNS says. *)
Theorem C64_safe : forall St init decompress shown k ve moved enoent i cron now t ms u,
  update St init decompress shown k ve moved enoent i cron now t ms = Ok u ->
  after u = i \/ exit_code u = 0 /\ exists d, has (after u) d /\ acceptable k t d.
Proof. exact update_safe. Qed.
Print Assumptions C64_safe.

(** A database is replaced only by a newer one.
    Missing: when there is no time from DNS, see below. *)
Theorem C64_newer_partial : forall St init decompress shown k ve moved enoent i cron now t ms u v d0,
  update St init decompress shown k ve moved enoent i cron now t ms = Ok u ->
  t = Some v -> v <> 0%N -> has i d0 -> is_time (d_created_at d0) -> after u <> i ->
  exists d, has (after u) d /\ (d_created_at d0 < v <= d_created_at d)%N.
Proof. exact update_newer. Qed.
Print Assumptions C64_newer_partial.

(** The exit codes: 3 if the database is younger than the interval; with 0 there is a
    database that was verified or is up to date; with any other nothing was changed. *)
Theorem C64_codes : forall St init decompress shown k ve moved enoent i cron now t ms u,
  update St init decompress shown k ve moved enoent i cron now t ms = Ok u ->
  (exit_code u = 3 <-> exists c d, cron = Some c /\ has i d /\ now - delta c <= py_created_at d) /\
  (exit_code u = 0 -> exists d, has (after u) d /\
     ((after u = i /\ exists v, t = Some v /\ v <> 0%N /\ Z.of_N v <= py_created_at d) \/ acceptable k t d)) /\
  (exit_code u <> 0 -> after u = i) /\
  (exit_code u = 0 \/ exit_code u = 1 \/ exit_code u = 2 \/ exit_code u = 3).
Proof. exact update_codes. Qed.
Print Assumptions C64_codes.

(** The update takes place if the mirrors before the first good one report errors and
    there is no database or an older one that is due.
    Missing: other mirrors before it (C48), files that are no database. *)
Theorem C64_updates_partial : forall St init decompress shown k ve moved enoent i cron now t ms codes cs o rest d,
  ms = map HttpError codes ++ Body cs false :: rest -> delivers St decompress init cs o ->
  db_open o = Ok d -> acceptable k t d -> is_time (d_created_at d) -> (forall v, shown v = true) -> moved = true ->
  (i = Missing \/ exists d0, has i d0 /\ (forall c, cron = Some c -> py_created_at d0 < now - delta c) /\
     (forall v, t = Some v -> v <> 0%N -> py_created_at d0 < Z.of_N v)) ->
  update St init decompress shown k ve moved enoent i cron now t ms = Ok (mkUpdate 0 (File o)).
Proof. exact update_good. Qed.
Print Assumptions C64_updates_partial.

Definition updated (i : installed) (cron : option interval) (now : Z) (t : option N) (ms : list mirror) :=
  update unit tt plain (fun _ => true) key false true false i cron now t ms.
Definition is_time_of (i : installed) (v : N) : bool :=
  match i with File f => match db_open f with Ok d => (d_created_at d =? v)%N | _ => false end | _ => false end.
Definition updated_to (r : outcome update_result) (c : Z) (v : N) : bool :=
  match r with Ok u => (exit_code u =? c) && is_time_of (after u) v | _ => false end.
(** The database of time 5 is replaced by that of time 10 if DNS says 10, and it is not if it
    says 5, if a mirror sends one without a valid signature, or if it was updated
    within a day. *)
Example C64_case :
  (updated_to (updated (File (signed 5)) None 0 (Some 10%N) [HttpError 404; Body (chunks (signed 10)) false]) 0 10 &&
   updated_to (updated Missing (Some Daily) 0 (Some 10%N) [Body (chunks (signed 10)) false]) 0 10 &&
   updated_to (updated (File (signed 5)) None 0 (Some 5%N) [Body (chunks (signed 10)) false]) 0 5 &&
   updated_to (updated (File (signed 5)) None 0 (Some 10%N) [Body (chunks (small 10 [7%N])) false]) 1 5 &&
   updated_to (updated (File (signed 5)) (Some Daily) 86405 (Some 10%N) [Body (chunks (signed 10)) false]) 3 5 &&
   updated_to (updated (File (signed 5)) (Some Daily) 86406 (Some 10%N) [Body (chunks (signed 10)) false]) 0 10)%bool = true.
Proof. vm_compute. reflexivity. Qed.

Lemma has_time f v : is_time_of (File f) v = true -> exists d, has (File f) d /\ d_created_at d = v.
Proof.
  unfold is_time_of. destruct (db_open f) as [d| | |] eqn:O; try discriminate. intros E. exists d. split; [exists f; auto|]. now apply N.eqb_eq.
Qed.

(** Without a time from DNS a database can be replaced by an older one. *)
Theorem C64_newer_refuted : exists i ms u d0 d, updated i None 0 None ms = Ok u /\ exit_code u = 0 /\
  has i d0 /\ has (after u) d /\ (d_created_at d < d_created_at d0)%N.
Proof.
  exists (File (signed 10)), [Body (chunks (signed 5)) false].
  assert (E : updated (File (signed 10)) None 0 None [Body (chunks (signed 5)) false] = Ok (mkUpdate 0 (File (signed 5)))) by (vm_compute; reflexivity).
  destruct (has_time (signed 10) 10 ltac:(vm_compute; reflexivity)) as (d0 & O0 & C0).
  destruct (has_time (signed 5) 5 ltac:(vm_compute; reflexivity)) as (d & O & C).
  exists (mkUpdate 0 (File (signed 5))), d0, d. split; [exact E|]. split; [reflexivity|]. split; [exact O0|]. split; [exact O|].
  now rewrite C, C0.
Qed.
Print Assumptions C64_newer_refuted.

(** A file that is no database is never replaced. *)
Theorem C64_broken_refuted : forall St init decompress shown k ve moved f e cron now t ms, db_open f = Err e ->
  update St init decompress shown k ve moved false (File f) cron now t ms = Ok (mkUpdate 1 (File f)).
Proof. exact update_stuck. Qed.
Print Assumptions C64_broken_refuted.
Example C64_broken_case : db_open (txt "<html>") = Err 1 /\ db_open (0%N :: tl (signed 5)) = Err 1.
Proof. split; vm_compute; reflexivity. Qed.

(** With C52: if the reply says when the latest version was published, a database that
    gets installed is at least that recent. *)
Theorem C64_published : forall m pad w y mo dd h mi s t St init decompress shown k ve moved enoent i cron now ms u,
  reply_ok m -> In w day_names -> valid_date y mo dd h mi s -> string_ m = date_text w y mo dd h mi s ->
  length (reply_bytes m ++ pad) = 512%nat -> (length (reply_bytes m) < 512)%nat \/ more m ++ SpecResolv.rest m <> [] ->
  0 < seconds_since_epoch y mo dd h mi s < 2 ^ 64 ->
  py_discover dn_expand 0 (Z.of_nat (length (reply_bytes m))) (reply_bytes m ++ pad) = Ok t ->
  update St init decompress shown k ve moved enoent i cron now t ms = Ok u ->
  after u = i \/ exists d, has (after u) d /\ verify d k = Ok 0 /\ seconds_since_epoch y mo dd h mi s <= Z.of_N (d_created_at d).
Proof. exact update_published. Qed.
Print Assumptions C64_published.

(** The other commands: verify reports 0 if and only if the database is verified. *)
Theorem C64_verify : forall k enoent f,
  verify_command k enoent (File f) = Ok 0 <-> exists d, db_open f = Ok d /\ verify d k = Ok 0.
Proof. exact verify_codes. Qed.
Print Assumptions C64_verify.
Example C64_verify_case : verify_command key false (File (signed 10)) = Ok 0 /\ verify_command key false (File (signed 11)) = Ok 1.
Proof. split; vm_compute; reflexivity. Qed.

(** C65. Every time from 1970 to the year 9999 is printed as the date and day of the
    week it is. *)
Theorem C65_text : forall t fuel, 0 <= t < 253402300800 -> (3 <= fuel)%nat ->
  exists y m d h mi s, valid_date y m d h mi s /\ seconds_since_epoch y m d h mi s = t /\
    time_text t fuel = Some (date_text (weekday t) y m d h mi s).
Proof. exact time_text_spec. Qed.
Print Assumptions C65_text.

(** Published in DNS, this text is read as the same time. *)
Theorem C65_round_trip : forall m pad t fuel, 0 <= t < 253402300800 -> (3 <= fuel)%nat ->
  reply_ok m -> time_text t fuel = Some (string_ m) -> length (reply_bytes m ++ pad) = 512%nat ->
  (length (reply_bytes m) < 512)%nat \/ more m ++ SpecResolv.rest m <> [] ->
  discover dn_expand 0 (Z.of_nat (length (reply_bytes m))) (reply_bytes m ++ pad) = Ok (0, Some t).
Proof. exact text_read_back. Qed.
Print Assumptions C65_round_trip.

Example C65_case : time_text 1709203330 3 = Some (txt "Thu, 29 Feb 2024 10:42:10 GMT") /\
  time_text 4102444799 3 = Some (txt "Thu, 31 Dec 2099 23:59:59 GMT") /\ time_text 951782400 3 = Some (txt "Tue, 29 Feb 2000 00:00:00 GMT") /\
  time_text 253402300799 3 = Some (txt "Fri, 31 Dec 9999 23:59:59 GMT") /\
  reply_ok (example 57 [1; 2; 3]%N) /\ string_ (example 57 [1; 2; 3]%N) = txt "Thu, 29 Feb 2024 10:42:10 GMT".
Proof.
  split; [vm_compute; reflexivity|]. split; [vm_compute; reflexivity|]. split; [vm_compute; reflexivity|]. split; [vm_compute; reflexivity|].
  split; [apply example_ok; reflexivity|reflexivity].
Qed.

(** `location version` prints the time at which the database was written. *)
Theorem C65_version : forall ctz0 held key1 key2 os w x w' f d,
  Forall call_ok os -> program ctz0 held key1 key2 os = Ok w ->
  write_to ctz0 held key1 key2 w x = Ok (0, w', f) ->
  (N.of_nat (length f) < 2 ^ 32)%N -> (s_now x < 253402300800)%N -> db_open f = Ok d ->
  forall fuel, (3 <= fuel)%nat ->
  exists y m dd h mi s, valid_date y m dd h mi s /\ seconds_since_epoch y m dd h mi s = Z.of_N (s_now x) /\
    time_text (py_created_at d) fuel = Some (date_text (weekday (Z.of_N (s_now x))) y m dd h mi s).
Proof. exact version_text. Qed.
Print Assumptions C65_version.
Example C65_version_case : exists w w' f d, program 8 (fun _ => true) None None [AddAs 7] = Ok w /\
    write_to 8 (fun _ => true) None None w save0 = Ok (0, w', f) /\
    (N.of_nat (length f) < 2 ^ 32)%N /\ (s_now save0 < 2 ^ 64)%N /\ db_open f = Ok d /\
    match time_text (py_created_at d) 3 with Some s => cstr_eqb s (txt "Tue, 14 Nov 2023 22:13:20 GMT") | None => false end = true.
Proof. apply a_case. vm_compute. reflexivity. Qed.
