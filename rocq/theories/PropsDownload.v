(** C48: downloading a database. *)
From Coq Require Import NArith ZArith List Bool Arith Lia.
From Verif Require Import Base ModelCountryCode ModelStringPool ModelFile ModelDatabase ModelVerify ModelDownload SpecDownload LemmasDownload.
Import ListNotations.
Open Scope N_scope.

(** Whatever the mirrors do, and whatever the decompressor does: the file that is
    returned is a database that is recent enough and was verified with the key. *)
Theorem C48_accepted : forall St init decompress shown k timestamp ms f,
  download St init decompress (check_database shown k timestamp) ms = Returned f ->
  exists d, db_open f = Ok d /\ (timestamp <> 0 -> timestamp <= d_created_at d) /\ verify d k = Ok 0%Z.
Proof. exact download_checked. Qed.
Print Assumptions C48_accepted.

(** The file is what one mirror delivered, behind everything that was delivered by
    the mirrors tried before in vain. *)
Theorem C48_content : forall St init decompress check ms f,
  download St init decompress check ms = Returned f ->
  check f = Some true /\
  exists before m after junk o, ms = before ++ m :: after /\ Forall2 (in_vain St decompress init) before junk /\
    whole St decompress init m o /\ f = concat junk ++ o.
Proof. exact download_spec. Qed.
Print Assumptions C48_content.

(** Hence it is exactly what one mirror delivered if the mirrors before delivered
    nothing. Missing: mirrors that fail later, see below. *)
Theorem C48_one_mirror_partial : forall St init decompress check ms f,
  download St init decompress check ms = Returned f ->
  exists before m after o, ms = before ++ m :: after /\ whole St decompress init m o /\
    ((forall b j, In b before -> in_vain St decompress init b j -> j = []) -> f = o).
Proof. exact download_one. Qed.
Print Assumptions C48_one_mirror_partial.

(** A mirror with an acceptable file is used if the ones before report errors. *)
Theorem C48_found_partial : forall St init decompress check codes chunks o after,
  delivers St decompress init chunks o -> check o = Some true ->
  download St init decompress check (map HttpError codes ++ Body chunks false :: after) = Returned o.
Proof. exact download_good. Qed.
Print Assumptions C48_found_partial.

Example C48_case :
  get_db [HttpError 404; HttpError 304; Body (chunks (signed 10)) false] = Returned (signed 10) /\
  get_db [Body (chunks (signed 5)) false] = NotFound /\
  get_db [Body (chunks (small 10 [7])) false] = NotFound /\
  get_db [Body [[1; 2; 3]] false] = Exception [1; 2; 3].
Proof. split; [vm_compute; reflexivity|]. split; [vm_compute; reflexivity|]. split; vm_compute; reflexivity. Qed.

(** truncate() at the end of the file removes nothing. What is left by mirrors that
    failed is part of the file: here the file returned is what neither of the
    mirrors delivered. *)
Theorem C48_one_mirror_refuted : exists ms f, get_db ms = Returned f /\
  forall m, In m ms -> ~ whole unit plain tt m f.
Proof. exact one_mirror_witness. Qed.
Print Assumptions C48_one_mirror_refuted.

(** An outdated mirror makes every mirror behind it useless. *)
Theorem C48_outdated_refuted : forall St init decompress shown k timestamp chunks o ms d f,
  delivers St decompress init chunks o -> db_open o = Ok d -> timestamp <> 0 -> d_created_at d < timestamp ->
  download St init decompress (check_database shown k timestamp) (Body chunks false :: ms) <> Returned f.
Proof. exact download_outdated. Qed.
Print Assumptions C48_outdated_refuted.

Example C48_outdated_case :
  get_db [Body (chunks (signed 5)) false; Body (chunks (signed 10)) false] = NotFound /\
  get_db [Body (chunks (signed 10)) false] = Returned (signed 10).
Proof. split; vm_compute; reflexivity. Qed.

(** A transfer that breaks after the first chunk has the same effect. *)
Theorem C48_broken_refuted : exists m1 m2, in_vain unit plain tt m1 (firstn 1024 (signed 10)) /\
  get_db [m1; m2] = NotFound /\ get_db [m2] = Returned (signed 10).
Proof. exact broken_witness. Qed.
Print Assumptions C48_broken_refuted.

(** A mirror that cannot be reached ends the search, the temporary file stays. *)
Theorem C48_unreachable_refuted : forall St init decompress check ms,
  download St init decompress check (Unreachable :: ms) = Exception [].
Proof. exact (fun St init decompress check ms => eq_refl). Qed.
Print Assumptions C48_unreachable_refuted.
