(** Updates with DNS, and the version of written databases. *)
From Coq Require Import String.
From Coq Require Import NArith ZArith List Bool Arith Lia ZifyBool ZifyNat ZifyN.
From Verif Require Import Base ModelCountryCode ModelText SpecText ModelStringPool ModelFile ModelTree ModelWriter ModelDatabase ModelVerify ModelResolv ModelDownload
  SpecResolv LemmasResolv LemmasResolvDate LemmasResolvReply ModelUpdate SpecUpdate LemmasUpdate LemmasGmtime SpecWriter LemmasDbProps.
Import ListNotations.
Open Scope Z_scope.

Lemma update_published m pad w y mo dd h mi s t St init decompress shown k ve moved enoent i cron now ms u :
  reply_ok m -> In w day_names -> valid_date y mo dd h mi s -> string_ m = date_text w y mo dd h mi s ->
  length (reply_bytes m ++ pad) = 512%nat -> (length (reply_bytes m) < 512)%nat \/ more m ++ SpecResolv.rest m <> [] ->
  0 < seconds_since_epoch y mo dd h mi s < 2 ^ 64 ->
  py_discover dn_expand 0 (Z.of_nat (length (reply_bytes m))) (reply_bytes m ++ pad) = Ok t ->
  update St init decompress shown k ve moved enoent i cron now t ms = Ok u ->
  after u = i \/ exists d, has (after u) d /\ verify d k = Ok 0 /\ seconds_since_epoch y mo dd h mi s <= Z.of_N (d_created_at d).
Proof.
  intros Ok_ W V E L R B P U. pose proof (discover_date m pad w y mo dd h mi s Ok_ W V E L R) as D.
  set (v := seconds_since_epoch y mo dd h mi s) in *. clearbody v.
  rewrite (discover_some _ _ _ _ v D ltac:(lia)) in P. assert (T : t = Some (Z.to_N v)) by congruence.
  destruct (update_safe _ _ _ _ _ _ _ _ _ _ _ _ _ _ U) as [X|(_ & d & H & Vf & A)]; [left; exact X|right].
  exists d. split; auto. split; auto. specialize (A _ T ltac:(lia)). lia.
Qed.

Lemma version_text ctz0 held key1 key2 os w x w' f d :
  Forall call_ok os -> program ctz0 held key1 key2 os = Ok w ->
  write_to ctz0 held key1 key2 w x = Ok (0, w', f) ->
  (N.of_nat (length f) < 2 ^ 32)%N -> (s_now x < 253402300800)%N -> db_open f = Ok d ->
  forall fuel, (3 <= fuel)%nat ->
  exists y m dd h mi s, valid_date y m dd h mi s /\ seconds_since_epoch y m dd h mi s = Z.of_N (s_now x) /\
    time_text (py_created_at d) fuel = Some (date_text (weekday (Z.of_N (s_now x))) y m dd h mi s).
Proof.
  intros C P W L Nw O fuel F.
  destruct (written_metadata _ _ _ _ _ _ _ _ _ C P W L ltac:(clear -Nw; lia)) as (d' & O' & _ & _ & _ & Cr & _).
  rewrite O in O'. assert (d' = d) by congruence. subst d'.
  assert (E : py_created_at d = Z.of_N (s_now x)).
  { unfold py_created_at. rewrite Cr. replace (s_now x <? 2 ^ 63)%N with true by (clear -Nw; lia). reflexivity. }
  rewrite E. apply time_text_spec; auto. clear -Nw. lia.
Qed.
