(** Updating the installed database. *)
From Coq Require Import String.
From Coq Require Import NArith ZArith List Bool Arith Lia ZifyBool ZifyNat ZifyN.
From Verif Require Import Base ModelCountryCode ModelText SpecText ModelStringPool ModelFile ModelDatabase ModelVerify ModelResolv ModelDownload SpecDownload
  LemmasDownload SpecResolv LemmasResolv LemmasResolvDate LemmasResolvReply ModelUpdate SpecUpdate.
Import ListNotations.
Open Scope Z_scope.

Section Update.
Variables (St : Type) (init : St) (decompress : St -> list N -> decompressed St).
Variables (shown : Z -> bool) (k : verifier) (value_error moved enoent : bool).
Variables (i : installed) (cron : option interval) (now : Z) (t : option N) (ms : list mirror).

Lemma handle_cases dd u : handle_update St init decompress shown k value_error moved i dd cron now t ms = u ->
  (exit_code u = 3 /\ after u = i /\ exists c d, cron = Some c /\ dd = Some d /\ now - delta c <= py_created_at d) \/
  ((forall c d, cron = Some c -> dd = Some d -> py_created_at d < now - delta c) /\
   ((exit_code u = 0 /\ after u = i /\ exists d v, dd = Some d /\ t = Some v /\ v <> 0%N /\ Z.of_N v <= py_created_at d) \/
    ((forall d v, dd = Some d -> t = Some v -> v <> 0%N -> py_created_at d < Z.of_N v) /\
     ((exit_code u = 0 /\ exists d, has (after u) d /\ acceptable k t d) \/ ((exit_code u = 1 \/ exit_code u = 2) /\ after u = i))))).
Proof.
  unfold handle_update. intros <-.
  destruct (match cron with Some c => match dd with Some d => now - delta c <=? py_created_at d | None => false end | None => false end) eqn:E1.
  { left. cbn [exit_code after]. split; auto. split; auto. destruct cron as [c|], dd as [d|]; try discriminate. exists c, d. repeat split; auto. lia. }
  right. split. { intros c d -> ->. lia. }
  destruct (match dd with Some d => match t with Some t => negb (t =? 0)%N && (Z.of_N t <=? py_created_at d) | None => false end | None => false end) eqn:E2.
  { left. cbn [exit_code after]. split; auto. split; auto. destruct dd as [d|], t as [v|]; try discriminate. exists d, v. repeat split; auto; lia. }
  right. split. { intros d v -> -> V. lia. }
  cbv zeta. set (ts := match t with Some t => t | None => 0%N end).
  destruct (negb (ts =? 0)%N && negb (shown (Z.of_N ts))).
  { right. cbn [exit_code after]. destruct value_error; auto. }
  destruct (download St init decompress (check_database shown k ts) ms) as [f| |l] eqn:D.
  - destruct moved; [left|right; auto]. cbn [exit_code after]. split; auto. apply download_checked in D as (d & O & C & V).
    exists d. split; [exists f; auto|]. split; auto. intros v E N0. unfold ts in C. rewrite E in C. auto.
  - right. cbn [exit_code after]. auto.
  - right. cbn [exit_code after]. destruct value_error; auto.
Qed.

Lemma py_open_db d : py_open enoent i = Db d -> has i d.
Proof.
  unfold py_open. destruct i as [| |f]; try discriminate. destruct (db_open f) as [d0|e| |] eqn:O; [|destruct enoent; discriminate|discriminate|discriminate].
  intros E. exists f. split; auto. congruence.
Qed.
Lemma has_py_open d : has i d -> py_open enoent i = Db d.
Proof. intros (f & -> & O). unfold py_open. now rewrite O. Qed.
Lemma has_one j d d' : has j d -> has j d' -> d = d'.
Proof. intros (f & -> & O) (f' & E & O'). assert (f' = f) by congruence. subst. congruence. Qed.

Lemma update_cases u : update St init decompress shown k value_error moved enoent i cron now t ms = Ok u ->
  (exit_code u = 3 /\ after u = i /\ exists c d, cron = Some c /\ has i d /\ now - delta c <= py_created_at d) \/
  ((forall c d, cron = Some c -> has i d -> py_created_at d < now - delta c) /\
   ((exit_code u = 0 /\ after u = i /\ exists d v, has i d /\ t = Some v /\ v <> 0%N /\ Z.of_N v <= py_created_at d) \/
    ((forall d v, has i d -> t = Some v -> v <> 0%N -> py_created_at d < Z.of_N v) /\
     ((exit_code u = 0 /\ exists d, has (after u) d /\ acceptable k t d) \/ ((exit_code u = 1 \/ exit_code u = 2) /\ after u = i))))) \/
  ((forall d, ~ has i d) /\ exit_code u = 1 /\ after u = i).
Proof.
  unfold update. destruct (py_open enoent i) as [d| | |] eqn:P; intros E; try discriminate.
  - apply (f_equal (fun r => match r with Ok v => v | _ => u end)) in E. pose proof (py_open_db _ P) as H.
    destruct (handle_cases (Some d) u E) as [(A1 & A2 & c & d' & A3 & A4 & A5)|(B & C)]; [left|right; left].
    + split; auto. split; auto. exists c, d. assert (d' = d) by congruence. subst. auto.
    + split. { intros c d' -> H'. rewrite (has_one _ _ _ H' H). eauto. }
      destruct C as [(C1 & C2 & d' & v & C3 & C4 & C5 & C6)|(C & D)]; [left|right].
      * split; auto. split; auto. exists d, v. assert (d' = d) by congruence. subst. auto.
      * split; auto. intros d' v H' ->. rewrite (has_one _ _ _ H' H). eauto.
  - apply (f_equal (fun r => match r with Ok v => v | _ => u end)) in E.
    assert (H : forall d, ~ has i d). { intros d H. apply has_py_open in H. congruence. }
    destruct (handle_cases None u E) as [(A1 & A2 & c & d' & A3 & A4 & A5)|(B & C)]; [discriminate|right; left].
    split. { intros c d _ X. now apply H in X. } right. split. { intros d v X. now apply H in X. }
    destruct C as [(_ & _ & d' & v & C3 & _)|(_ & D)]; [discriminate|auto].
  - right. right. assert (H : forall d, ~ has i d). { intros d H. apply has_py_open in H. congruence. }
    split; auto. assert (u = mkUpdate 1 i) by congruence. subst u. auto.
Qed.

Lemma update_safe u : update St init decompress shown k value_error moved enoent i cron now t ms = Ok u ->
  after u = i \/ exit_code u = 0 /\ exists d, has (after u) d /\ acceptable k t d.
Proof. intros E. destruct (update_cases u E) as [X|[(_ & [X|(_ & [X|X])])|X]]; intuition. Qed.

Lemma update_newer u v d0 : update St init decompress shown k value_error moved enoent i cron now t ms = Ok u ->
  t = Some v -> v <> 0%N -> has i d0 -> is_time (d_created_at d0) -> after u <> i ->
  exists d, has (after u) d /\ (d_created_at d0 < v <= d_created_at d)%N.
Proof.
  intros E T V H I Ne. destruct (update_cases u E) as [X|[(_ & [X|(C & [(_ & d & X & _ & A)|X])])|X]]; try now intuition.
  exists d. split; auto. specialize (C d0 v H T V). specialize (A v T V). unfold py_created_at in C.
  unfold is_time in I. replace (d_created_at d0 <? 2 ^ 63)%N with true in C by lia. lia.
Qed.

Lemma update_codes u : update St init decompress shown k value_error moved enoent i cron now t ms = Ok u ->
  (exit_code u = 3 <-> exists c d, cron = Some c /\ has i d /\ now - delta c <= py_created_at d) /\
  (exit_code u = 0 -> exists d, has (after u) d /\
     ((after u = i /\ exists v, t = Some v /\ v <> 0%N /\ Z.of_N v <= py_created_at d) \/ acceptable k t d)) /\
  (exit_code u <> 0 -> after u = i) /\
  (exit_code u = 0 \/ exit_code u = 1 \/ exit_code u = 2 \/ exit_code u = 3).
Proof.
  intros E. destruct (update_cases u E) as [(A1 & A2 & A3)|[(B & C)|(B & C1 & C2)]].
  - split; [tauto|]. split; [intros X; congruence|]. auto.
  - assert (N3 : exit_code u = 3 <-> exists c d, cron = Some c /\ has i d /\ now - delta c <= py_created_at d).
    { split; [|intros (c & d & X & Y & Z); specialize (B c d X Y); lia]. intros X. destruct C as [(C & _)|(_ & [(C & _)|(C & _)])]; lia. }
    split; [exact N3|]. destruct C as [(C1 & C2 & d & v & C3 & C4 & C5 & C6)|(_ & [(C1 & d & C2 & C3)|(C1 & C2)])].
    + rewrite C1, C2. split; [|split; auto]. intros _. exists d. split; auto. left. split; auto. exists v. auto.
    + rewrite C1. split; [|split; auto; congruence]. intros _. exists d. auto.
    + split; [intros X; lia|]. split; auto. destruct C1; auto.
  - split; [|split; [intros X; congruence|auto]]. split; [intros X; congruence|]. intros (c & d & _ & Y & _). now apply B in Y.
Qed.

Lemma check_good o d ts : db_open o = Ok d -> verify d k = Ok 0 -> (ts <= d_created_at d)%N -> is_time (d_created_at d) ->
  shown (Z.of_N (d_created_at d)) = true -> check_database shown k ts o = Some true.
Proof.
  intros O V L I Sh. unfold check_database. rewrite O. unfold is_time in I. unfold py_created_at.
  replace (d_created_at d <? 2 ^ 63)%N with true by lia. replace (Z.of_N (d_created_at d) <? Z.of_N ts) with false by lia.
  rewrite andb_false_r, Sh, V. reflexivity.
Qed.

Lemma update_good codes cs o rest d :
  ms = map HttpError codes ++ Body cs false :: rest -> delivers St decompress init cs o ->
  db_open o = Ok d -> acceptable k t d -> is_time (d_created_at d) -> (forall v, shown v = true) -> moved = true ->
  (i = Missing \/ exists d0, has i d0 /\ (forall c, cron = Some c -> py_created_at d0 < now - delta c) /\
     (forall v, t = Some v -> v <> 0%N -> py_created_at d0 < Z.of_N v)) ->
  update St init decompress shown k value_error moved enoent i cron now t ms = Ok (mkUpdate 0 (File o)).
Proof.
  intros -> D O (V & A) I Sh -> H.
  set (ts := match t with Some t => t | None => 0%N end).
  assert (L : (ts <= d_created_at d)%N). { unfold ts. destruct t as [v|]; [|lia]. specialize (A v eq_refl). lia. }
  assert (Dl : download St init decompress (check_database shown k ts) (map HttpError codes ++ Body cs false :: rest) = Returned o).
  { apply download_good; auto. apply (check_good o d ts); auto. }
  unfold update. destruct H as [->|(d0 & H & Hc & Ht)].
  - unfold py_open, handle_update. cbv zeta. fold ts. rewrite Sh, Dl. destruct cron; now rewrite andb_false_r.
  - rewrite (has_py_open d0 H). unfold handle_update. cbv zeta. fold ts. rewrite Sh, Dl.
    replace (match cron with Some c => now - delta c <=? py_created_at d0 | None => false end) with false.
    2 : { destruct cron as [c|]; [|reflexivity]. specialize (Hc c eq_refl). lia. }
    replace (match t with Some t0 => negb (t0 =? 0)%N && (Z.of_N t0 <=? py_created_at d0) | None => false end) with false.
    2 : { destruct t as [v|]; [|reflexivity]. specialize (Ht v eq_refl). lia. }
    now rewrite andb_false_r.
Qed.
End Update.

(** A file that is no database stays. *)
Lemma update_stuck St init decompress shown k ve moved f e cron now t ms : db_open f = Err e ->
  update St init decompress shown k ve moved false (File f) cron now t ms = Ok (mkUpdate 1 (File f)).
Proof. intros O. unfold update, py_open. now rewrite O. Qed.

Lemma verify_codes k enoent f : verify_command k enoent (File f) = Ok 0 <-> exists d, db_open f = Ok d /\ verify d k = Ok 0.
Proof.
  unfold verify_command, py_open. destruct (db_open f) as [d|e| |].
  - split.
    + intros H. exists d. split; auto. destruct (verify d k) as [r|?| |]; try discriminate.
      destruct (r =? 0) eqn:Z0; [|discriminate]. apply Z.eqb_eq in Z0. now rewrite Z0.
    + intros (d' & E & V). assert (d' = d) by congruence. subst. now rewrite V.
  - destruct enoent; (split; [discriminate|]); intros (d & E & _); discriminate.
  - split; [discriminate|]. intros (d & E & _). discriminate.
  - split; [discriminate|]. intros (d & E & _). discriminate.
Qed.

(** The time from DNS *)
Lemma discover_none expand r len answer v s : discover expand r len answer = Ok (v, s) -> v <> 0 -> py_discover expand r len answer = Ok None.
Proof. intros E V. unfold py_discover. rewrite E. cbn [bind]. replace (v =? 0) with false by lia. reflexivity. Qed.
Lemma discover_some expand r len answer s : discover expand r len answer = Ok (0, Some s) -> 0 <= s < 2 ^ 64 -> py_discover expand r len answer = Ok (Some (Z.to_N s)).
Proof. intros E V. unfold py_discover. rewrite E. cbn [bind]. rewrite Z.mod_small by lia. reflexivity. Qed.
