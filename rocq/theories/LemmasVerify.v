(** Signatures: what is signed and what is verified *)
From Coq Require Import NArith ZArith List Bool Arith Lia ZifyBool ZifyNat ZifyN.
From Verif Require Import Base LemmasBase ModelNetwork ModelFile ModelWriter ModelDatabase ModelVerify SpecVerify SpecWriter
  LemmasFile LemmasWriter LemmasWrite LemmasOpen LemmasSafe LemmasDb LemmasDbProps.
Import ListNotations.
Open Scope N_scope.

Lemma skipn_skipn {A} (l : list A) : forall i j, skipn i (skipn j l) = skipn (i + j) l.
Proof.
  induction l as [|x l IH]; intros i j; [now rewrite !skipn_nil|]. destruct j as [|j]; [now rewrite Nat.add_0_r|].
  rewrite Nat.add_succ_r. cbn [skipn]. apply IH.
Qed.

(** ** reading in chunks *)
Lemma CHUNK_val : N.of_nat CHUNK = 65536.
Proof. unfold CHUNK. apply N2Nat.id. Qed.
Local Opaque CHUNK.

Lemma concat_chunks fuel : forall l, (length l < fuel)%nat -> concat (chunks l fuel) = l.
Proof.
  induction fuel as [|fuel IH]; intros l L; [lia|]. cbn [chunks].
  destruct (Nat.ltb_spec (length l) CHUNK) as [|G]; [apply app_nil_r|]. cbn [concat].
  rewrite IH; [apply firstn_skipn|]. rewrite skipn_length. pose proof CHUNK_val. lia.
Qed.
Lemma concat_read_chunks l : concat (read_chunks l) = l.
Proof. apply concat_chunks. lia. Qed.

Lemma length_chunks fuel : forall l, (length l < fuel)%nat ->
  length (chunks l fuel) = (N.to_nat (N.of_nat (length l) / 65536) + 1)%nat.
Proof.
  pose proof CHUNK_val as C.
  induction fuel as [|fuel IH]; intros l L; [lia|]. cbn [chunks].
  destruct (Nat.ltb_spec (length l) CHUNK) as [G|G].
  - rewrite N.div_small by lia. reflexivity.
  - cbn [length]. rewrite IH by (rewrite skipn_length; lia). rewrite skipn_length.
    replace (N.of_nat (length l)) with (N.of_nat (length l - CHUNK) + 1 * 65536) by lia.
    rewrite N.div_add by lia. lia.
Qed.
Lemma length_read_chunks l : length (read_chunks l) = (N.to_nat (N.of_nat (length l) / 65536) + 1)%nat.
Proof. apply length_chunks. lia. Qed.

Lemma feed_none upd l : forall i, feed upd i l = None <-> forall j, (i <= j < i + length l)%nat -> upd j = 1%Z.
Proof.
  induction l as [|x l IH]; intros i; cbn [feed length].
  - split; auto. intros _ j H. lia.
  - destruct (Z.eqb_spec (upd i) 1) as [E|E].
    + rewrite IH. split; intros H j J.
      * destruct (Nat.eq_dec j i) as [->|]; auto. apply H. lia.
      * apply H. lia.
    + split; [discriminate|]. intros H. exfalso. apply E. apply H. lia.
Qed.

(** ** the stream *)
Lemma header_cleared f : 4200 <= flen f ->
  firstn (N.to_nat MAGIC_SIZE) f ++
  clear_header (firstn (N.to_nat HEADER_SIZE) (skipn (N.to_nat MAGIC_SIZE) f)) ++
  skipn (N.to_nat (MAGIC_SIZE + HEADER_SIZE)) f = signed_part f.
Proof.
  unfold flen. intros L. unfold clear_header, signed_part. rewrite <- !app_assoc.
  rewrite app_assoc. f_equal.
  - rewrite firstn_firstn. replace (Nat.min 60 (N.to_nat HEADER_SIZE)) with 60%nat by (unfold HEADER_SIZE; lia).
    rewrite <- (firstn_skipn (N.to_nat MAGIC_SIZE) f) at 3. change 68%nat with (N.to_nat MAGIC_SIZE + 60)%nat.
    rewrite firstn_app_2 || idtac.
    rewrite firstn_app. rewrite firstn_firstn. rewrite firstn_length.
    replace (Nat.min (N.to_nat MAGIC_SIZE + 60) (N.to_nat MAGIC_SIZE)) with (N.to_nat MAGIC_SIZE) by lia.
    do 2 f_equal. unfold MAGIC_SIZE in *. lia.
  - f_equal. rewrite skipn_firstn_comm, skipn_skipn.
    replace (N.to_nat (60 + 2 + 2 + SIG_MAX + SIG_MAX) + N.to_nat MAGIC_SIZE)%nat with (N.to_nat 4168) by (unfold SIG_MAX, MAGIC_SIZE; lia).
    replace (N.to_nat HEADER_SIZE - N.to_nat (60 + 2 + 2 + SIG_MAX + SIG_MAX))%nat with 32%nat by (unfold SIG_MAX, HEADER_SIZE; lia).
    replace (N.to_nat (MAGIC_SIZE + HEADER_SIZE)) with (32 + N.to_nat 4168)%nat by (unfold HEADER_SIZE, MAGIC_SIZE; lia).
    rewrite <- skipn_skipn. apply firstn_skipn.
Qed.

Lemma opened_signatures f d : db_open f = Ok d ->
  rd f (fst (d_sig1 d)) (snd (d_sig1 d)) = Ok (signature1 f) /\
  rd f (fst (d_sig2 d)) (snd (d_sig2 d)) = Ok (signature2 f) /\
  snd (d_sig1 d) = N.of_nat (length (signature1 f)) /\ snd (d_sig2 d) = N.of_nat (length (signature2 f)).
Proof.
  intros E. destruct (opened_file f d E) as (_ & L & _ & _ & B1 & B2 & F1 & F2).
  assert (S0 : snd (d_sig1 d) = be (firstn 2 (skipn 68 f)) /\ snd (d_sig2 d) = be (firstn 2 (skipn 70 f))).
  { revert E. unfold db_open. destruct (check_magic f) as [v| | |] eqn:M; try discriminate. cbn [bind].
    apply check_magic_spec in M as (_ & _ & -> & _). cbn [N.eqb Pos.eqb VERSION_1]. unfold read_header_v1.
    destruct (negb (check_boundaries f MAGIC_SIZE HEADER_SIZE)); try discriminate.
    unfold rd. destruct (_ <=? _); try discriminate. cbn [bind].
    set (h := firstn (N.to_nat HEADER_SIZE) (skipn (N.to_nat MAGIC_SIZE) f)).
    assert (H : forall k, (k <= 62)%nat -> firstn 2 (skipn k h) = firstn 2 (skipn (8 + k) f)).
    { intros k K. unfold h. rewrite skipn_firstn_comm, firstn_firstn, skipn_skipn.
      replace (Nat.min 2 (N.to_nat HEADER_SIZE - k)) with 2%nat by (unfold HEADER_SIZE; lia).
      f_equal. f_equal. unfold MAGIC_SIZE. lia. }
    pose proof (H 60%nat ltac:(lia)) as H1. pose proof (H 62%nat ltac:(lia)) as H2. clearbody h. clear H.
    unfold read_signature. destruct (_ <? _); try discriminate. cbn [bind]. destruct (_ <? _); try discriminate. cbn [bind].
    destruct (negb _); try discriminate. intros E.
    apply (f_equal (fun r => match r with Ok y => (d_sig1 y, d_sig2 y) | _ => (d_sig1 d, d_sig2 d) end)) in E. cbv beta iota in E.
    cbn [d_sig1 d_sig2] in E. apply pair_equal_spec in E as [E1 E2]. rewrite <- E1, <- E2. cbn [snd].
    unfold field. rewrite H1, H2. split; reflexivity. }
  destruct S0 as [S1 S2]. unfold signature1, signature2. rewrite <- S1, <- S2, F1, F2.
  unfold rd. unfold flen in L.
  replace (72 + snd (d_sig1 d) <=? N.of_nat (length f)) with true by lia.
  replace (2120 + snd (d_sig2 d) <=? N.of_nat (length f)) with true by lia.
  split; [reflexivity|]. split; [reflexivity|].
  rewrite !firstn_length, !skipn_length. split; lia.
Qed.

(** ** C37 *)
Definition sig_result (k : verifier) (i : nat) (m s : list N) : option Z :=
  match s with [] => None | _ => Some (vf_final k i m s) end.

Lemma check_spec f d k i m sig s : d_file d = f -> rd f (fst sig) (snd sig) = Ok s -> snd sig = N.of_nat (length s) ->
  check_signature d k i m sig = Ok (sig_result k i m s).
Proof.
  intros F R L. unfold check_signature, sig_result. rewrite F. destruct s as [|x s].
  - rewrite L. reflexivity.
  - replace (snd sig =? 0) with false by (cbn [length] in L; lia). rewrite R. reflexivity.
Qed.

Lemma verify_spec f d k : db_open f = Ok d ->
  vf_key k = true -> vf_init k = 1%Z -> (forall i, (i < updates f)%nat -> vf_update k i = 1%Z) ->
  verify d k =
  let second := match signature1 f with [] => 0%nat | _ => 1%nat end in
  match sig_result k 0 (signed_part f) (signature1 f), sig_result k second (signed_part f) (signature2 f) with
  | Some r1, Some r2 =>
      if negb ((r1 =? 0) || (r1 =? 1))%Z then Ok (-1)%Z
      else if negb ((r2 =? 0) || (r2 =? 1))%Z then Ok (-1)%Z
      else if ((r1 =? 1) || (r2 =? 1))%Z then Ok 0%Z else Ok 1%Z
  | Some r, None | None, Some r => if negb ((r =? 0) || (r =? 1))%Z then Ok (-1)%Z else if (r =? 1)%Z then Ok 0%Z else Ok 1%Z
  | None, None => Ok 1%Z
  end.
Proof.
  intros E K I U. destruct (opened_file f d E) as (F & L & _). destruct (opened_signatures f d E) as (R1 & R2 & L1 & L2).
  unfold verify. cbv zeta. rewrite F, K, I. change (negb (1 =? 1)%Z) with false. cbn [negb]. cbv iota.
  replace (flen f <? MAGIC_SIZE) with false by (unfold MAGIC_SIZE; lia).
  rewrite (U 0%nat), (U 1%nat) by (unfold updates; lia). change (negb (1 =? 1)%Z) with false. cbv iota.
  replace (flen f <? MAGIC_SIZE + HEADER_SIZE) with false by (unfold MAGIC_SIZE, HEADER_SIZE; lia).
  set (rest := read_chunks _).
  assert (Fd : feed (vf_update k) 2 rest = None).
  { apply feed_none. intros j J. apply U. unfold updates. unfold rest in J. rewrite length_read_chunks, skipn_length in J.
    unfold MAGIC_SIZE, HEADER_SIZE in J.
    replace (N.of_nat (length f - N.to_nat (8 + 4192))) with (N.of_nat (length f) - 4200) in J by lia. lia. }
  rewrite Fd. cbn [concat]. unfold rest. rewrite concat_read_chunks. rewrite header_cleared by auto.
  rewrite (check_spec f d k 0 (signed_part f) (d_sig1 d) (signature1 f) F R1 L1).
  rewrite !(check_spec f d k _ (signed_part f) (d_sig2 d) (signature2 f) F R2 L2). cbn [bind].
  unfold sig_result. destruct (signature1 f) as [|x1 s1]; destruct (signature2 f) as [|x2 s2]; try reflexivity.
Qed.

Lemma verify_failing f d k : db_open f = Ok d ->
  vf_key k = false \/ vf_init k <> 1%Z \/ (exists i, (i < updates f)%nat /\ vf_update k i <> 1%Z) ->
  verify d k = Ok (if vf_key k then 1%Z else (-1)%Z).
Proof.
  intros E H. destruct (opened_file f d E) as (F & L & _). unfold verify. cbv zeta. rewrite F.
  destruct (vf_key k); cbn [negb]; auto. destruct (Z.eqb_spec (vf_init k) 1) as [I|I]; cbn [negb]; auto.
  destruct H as [H|[H|(i & Hi & Ui)]]; try congruence.
  replace (flen f <? MAGIC_SIZE) with false by (unfold MAGIC_SIZE; lia).
  destruct (Z.eqb_spec (vf_update k 0) 1) as [U0|U0]; cbn [negb]; auto.
  replace (flen f <? MAGIC_SIZE + HEADER_SIZE) with false by (unfold MAGIC_SIZE, HEADER_SIZE; lia).
  destruct (Z.eqb_spec (vf_update k 1) 1) as [U1|U1]; cbn [negb]; auto.
  set (rest := read_chunks _). destruct (feed (vf_update k) 2 rest) eqn:Fd; auto. exfalso.
  rewrite feed_none in Fd. apply Ui. destruct i as [|[|i]]; auto. apply Fd.
  unfold rest. rewrite length_read_chunks, skipn_length. unfold updates in Hi. unfold MAGIC_SIZE, HEADER_SIZE.
  replace (N.of_nat (length f - N.to_nat (8 + 4192))) with (N.of_nat (length f) - 4200) by lia. lia.
Qed.

(** valid or invalid, but no error; the number of the call *)
Definition answered (k : verifier) (i : nat) (m s : list N) : Prop := vf_final k i m s = 0%Z \/ vf_final k i m s = 1%Z.

Lemma verify_iff f d k : db_open f = Ok d ->
  let m := signed_part f in
  let s1 := signature1 f in let s2 := signature2 f in
  let second := match s1 with [] => 0%nat | _ => 1%nat end in
  verify d k = Ok 0%Z <->
  vf_key k = true /\ vf_init k = 1%Z /\ (forall i, (i < updates f)%nat -> vf_update k i = 1%Z) /\
  (s1 <> [] -> answered k 0 m s1) /\ (s2 <> [] -> answered k second m s2) /\
  ((s1 <> [] /\ vf_final k 0 m s1 = 1%Z) \/ (s2 <> [] /\ vf_final k second m s2 = 1%Z)).
Proof.
  intros E. cbv zeta.
  destruct (vf_key k) eqn:K.
  2:{ rewrite (verify_failing f d k E) by auto. rewrite K. split; [discriminate|]. intros [H _]. discriminate. }
  destruct (Z.eq_dec (vf_init k) 1) as [I|I].
  2:{ rewrite (verify_failing f d k E) by auto. rewrite K. split; [discriminate|]. intros (_ & H & _). contradiction. }
  destruct (forallb (fun i => vf_update k i =? 1)%Z (seq 0 (updates f))) eqn:U.
  2:{ assert (X : exists i, (i < updates f)%nat /\ vf_update k i <> 1%Z).
      { clear -U. assert (Y : ~ Forall (fun i => (vf_update k i =? 1)%Z = true) (seq 0 (updates f))).
        { intros F. rewrite Forall_forall in F. rewrite <- forallb_forall in F. congruence. }
        apply Exists_Forall_neg in Y; [|intros i; destruct (vf_update k i =? 1)%Z; auto].
        apply Exists_exists in Y as (i & Ii & Ui). apply in_seq in Ii. exists i. split; [lia|].
        intros Q. rewrite Q in Ui. now apply Ui. }
      rewrite (verify_failing f d k E) by auto. rewrite K. split; [discriminate|].
      intros (_ & _ & H & _). destruct X as (i & Hi & Ui). destruct (Ui (H i Hi)). }
  assert (U' : forall i, (i < updates f)%nat -> vf_update k i = 1%Z).
  { intros i Hi. rewrite forallb_forall in U. apply Z.eqb_eq, U. apply in_seq. lia. }
  rewrite (verify_spec f d k E K I U'). cbv zeta. unfold answered, sig_result.
  destruct (signature1 f) as [|x1 s1]; destruct (signature2 f) as [|x2 s2].
  - split; [discriminate|]. intros (_ & _ & _ & _ & _ & [[H _]|[H _]]); now destruct H.
  - set (r := vf_final k 0 _ _). destruct (Z.eqb_spec r 0) as [R|R]; [|destruct (Z.eqb_spec r 1) as [R'|R']]; cbn [orb negb].
    + split; [rewrite R; discriminate|]. intros (_ & _ & _ & _ & _ & [[H _]|[_ H]]); [now destruct H|]. rewrite R in H. discriminate.
    + split; auto. intros _. split; auto. split; auto. split; auto. split; [congruence|]. split; auto. right. split; auto. discriminate.
    + split; [discriminate|]. intros (_ & _ & _ & _ & H & _). destruct H; [discriminate|contradiction|contradiction].
  - set (r := vf_final k 0 _ _). destruct (Z.eqb_spec r 0) as [R|R]; [|destruct (Z.eqb_spec r 1) as [R'|R']]; cbn [orb negb].
    + split; [rewrite R; discriminate|]. intros (_ & _ & _ & _ & _ & [[_ H]|[H _]]); [rewrite R in H; discriminate|now destruct H].
    + split; auto. intros _. split; auto. split; auto. split; auto. split; auto. split; [congruence|]. left. split; auto. discriminate.
    + split; [discriminate|]. intros (_ & _ & _ & H & _). destruct H; [discriminate|contradiction|contradiction].
  - set (r := vf_final k 0 _ _). set (q := vf_final k 1 _ _).
    assert (Hr : r = 0%Z \/ r = 1%Z \/ ~ (r = 0%Z \/ r = 1%Z)) by lia.
    assert (Hq : q = 0%Z \/ q = 1%Z \/ ~ (q = 0%Z \/ q = 1%Z)) by lia.
    destruct Hr as [R|[R|R]].
    3:{ replace (negb ((r =? 0) || (r =? 1))%Z) with true by lia. split; [discriminate|].
        intros (_ & _ & _ & H & _). destruct R. apply H. discriminate. }
    all: destruct Hq as [Q|[Q|Q]].
    3,6: replace (negb ((r =? 0) || (r =? 1))%Z) with false by lia;
         replace (negb ((q =? 0) || (q =? 1))%Z) with true by lia; split; [discriminate|];
         intros (_ & _ & _ & _ & H & _); destruct Q; apply H; discriminate.
    all: rewrite R, Q; cbn [Z.eqb orb negb Pos.eqb]; split;
         [discriminate || (intros _; split; auto; split; auto; split; auto; split; auto; split; auto;
            first [left; split; [discriminate|reflexivity]|right; split; [discriminate|reflexivity]])
         |auto].
    intros (_ & _ & _ & _ & _ & [[_ H]|[_ H]]); discriminate.
Qed.

(** ** what the writer signs *)
Definition plain (h : header) : list N :=
  to_be 8 (h_created_at h) ++
  to_be 4 (h_vendor h) ++ to_be 4 (h_description h) ++ to_be 4 (h_license h) ++
  to_be 4 (h_as_offset h) ++ to_be 4 (h_as_length h) ++
  to_be 4 (h_data_offset h) ++ to_be 4 (h_data_length h) ++
  to_be 4 (h_tree_offset h) ++ to_be 4 (h_tree_length h) ++
  to_be 4 (h_countries_offset h) ++ to_be 4 (h_countries_length h) ++
  to_be 4 (h_pool_offset h) ++ to_be 4 (h_pool_length h).
Lemma plain_length h : length (plain h) = 60%nat.
Proof. unfold plain. rewrite !app_length, !to_be_length. reflexivity. Qed.
Lemma enc_header_plain h : enc_header h =
  plain h ++ to_be 2 (h_sig1_length h) ++ to_be 2 (h_sig2_length h) ++ h_sig1 h ++ h_sig2 h ++ h_padding h.
Proof. unfold enc_header, plain. now rewrite <- !app_assoc. Qed.
Lemma plain_sign h s1 s2 : plain (sign_header h s1 s2) = plain h.
Proof. reflexivity. Qed.

Section Layout.
Variables (P : list N) (n1 n2 : N) (S1 S2 T : list N).
Hypothesis HP : length P = 68%nat.
Hypothesis H1 : N.of_nat (length S1) = 2048.
Hypothesis H2 : N.of_nat (length S2) = 2048.
Hypothesis B1 : n1 <= 2048.
Hypothesis B2 : n2 <= 2048.
Let F := P ++ to_be 2 n1 ++ to_be 2 n2 ++ S1 ++ S2 ++ T.
Lemma skip68 : skipn 68 F = to_be 2 n1 ++ to_be 2 n2 ++ S1 ++ S2 ++ T.
Proof. unfold F. rewrite <- HP, skipn_app, skipn_all, Nat.sub_diag. reflexivity. Qed.
Lemma skip_to k L R : skipn 68 F = L ++ R -> (68 + length L = k)%nat -> skipn k F = R.
Proof.
  intros E K. replace k with (length L + 68)%nat by lia. rewrite <- skipn_skipn, E, skipn_app, skipn_all, Nat.sub_diag. reflexivity.
Qed.
Lemma layout : signed_part F = P ++ repeat 0 (N.to_nat 4100) ++ T /\
  signature1 F = firstn (N.to_nat n1) S1 /\ signature2 F = firstn (N.to_nat n2) S2.
Proof.
  pose proof skip68 as S0.
  assert (E2 : skipn 70 F = to_be 2 n2 ++ S1 ++ S2 ++ T) by (apply (skip_to _ (to_be 2 n1)); [exact S0|now rewrite to_be_length]).
  assert (E3 : skipn 72 F = S1 ++ S2 ++ T).
  { apply (skip_to _ (to_be 2 n1 ++ to_be 2 n2)); [now rewrite <- app_assoc|now rewrite app_length, !to_be_length]. }
  assert (E4 : skipn (N.to_nat 2120) F = S2 ++ T).
  { apply (skip_to _ (to_be 2 n1 ++ to_be 2 n2 ++ S1)); [now rewrite <- !app_assoc|]. rewrite !app_length, !to_be_length. lia. }
  assert (E5 : skipn (N.to_nat 4168) F = T).
  { apply (skip_to _ (to_be 2 n1 ++ to_be 2 n2 ++ S1 ++ S2)); [now rewrite <- !app_assoc|]. rewrite !app_length, !to_be_length. lia. }
  assert (G : forall n r, n <= 2048 -> be (firstn 2 (to_be 2 n ++ r)) = n).
  { intros n r B. rewrite firstn_app, to_be_length. cbn [Nat.sub]. rewrite firstn_O, app_nil_r.
    rewrite firstn_all2 by (rewrite to_be_length; lia). apply be_to_be. cbn. lia. }
  unfold signed_part, signature1, signature2. rewrite S0, E2, E3, E4, E5, !G by auto.
  split; [|split].
  - f_equal. unfold F. rewrite firstn_app, HP. cbn [Nat.sub]. rewrite firstn_O, app_nil_r. apply firstn_all2. lia.
  - rewrite firstn_app. replace (N.to_nat n1 - length S1)%nat with 0%nat by lia. now rewrite firstn_O, app_nil_r.
  - rewrite firstn_app. replace (N.to_nat n2 - length S2)%nat with 0%nat by lia. now rewrite firstn_O, app_nil_r.
Qed.
End Layout.

Lemma create_spec k H f s s' : 8 <= N.of_nat (length f) -> create_signature k H f s = Ok (0%Z, s') ->
  let rest := skipn (N.to_nat (MAGIC_SIZE + HEADER_SIZE)) f in
  (ev_init k = 1%Z /\ (forall i, (i < 3 + N.to_nat (N.of_nat (length rest) / 65536))%nat -> ev_update k i = 1%Z) /\
   exists sg, ev_final k (firstn (N.to_nat MAGIC_SIZE) f ++ H ++ rest) = (1%Z, sg) /\
     firstn (N.to_nat (snd s')) (fst s') = sg) \/
  (unreported (ev_init k) (ev_update k) /\ s' = (fst s, SIG_MAX)).
Proof.
  intros L. cbv zeta. unfold create_signature, unreported. set (rest := skipn _ f).
  destruct (Z.eqb_spec (ev_init k) 1) as [I|I]; cbn [negb].
  2:{ intros E. apply ok2 in E as [E <-]. right. auto. }
  replace (N.of_nat (length f) <? MAGIC_SIZE) with false by (unfold MAGIC_SIZE; lia).
  destruct (feed (ev_update k) 0 _) as [[i r]|] eqn:Fd.
  - intros E. apply ok2 in E as [E <-]. right. split; auto. right. cbn [feed] in Fd.
    destruct (Z.eqb_spec (ev_update k 0) 1) as [U0|U0].
    + right. destruct (Z.eqb_spec (ev_update k 1) 1) as [U1|U1].
      * exfalso. assert (X : (2 <= i)%nat); [|replace (i <? 2)%nat with false in E by lia; discriminate].
        clear -Fd. revert Fd. generalize 2%nat as j. induction (read_chunks rest) as [|c l IH]; intros j; cbn [feed]; [discriminate|].
        destruct (_ =? _)%Z; [intros Q; apply IH in Q; lia|]. intros Q. injection Q as <- _. lia.
      * apply (f_equal (fun o => match o with Some (i, r) => (i, r) | None => (0%nat, 0%Z) end)) in Fd.
        cbv beta iota in Fd. apply pair_equal_spec in Fd as [<- <-]. split; auto.
    + left. apply (f_equal (fun o => match o with Some (i, r) => (i, r) | None => (0%nat, 0%Z) end)) in Fd.
      cbv beta iota in Fd. apply pair_equal_spec in Fd as [<- <-]. split; auto.
  - cbn [concat]. rewrite concat_read_chunks.
    destruct (ev_final k _) as [r sg] eqn:Ef. destruct (Z.eqb_spec r 1) as [->|]; cbn [negb].
    2:{ intros E. apply ok2 in E as [E _]. discriminate. }
    destruct (_ <? _); [discriminate|]. intros E. apply ok2 in E as [_ <-]. left. split; auto. split.
    + rewrite feed_none in Fd. cbn [length] in Fd. rewrite length_read_chunks in Fd. intros i Hi. apply Fd. lia.
    + exists sg. split; auto. cbn [fst snd]. rewrite Nat2N.id, firstn_app, Nat.sub_diag, firstn_O, app_nil_r. apply firstn_all.
Qed.

Lemma sig_field_spec s : sig_ok s -> N.of_nat (length (sig_field s)) = 2048 /\
  firstn (N.to_nat (snd s)) (sig_field s) = firstn (N.to_nat (snd s)) (fst s).
Proof.
  intros [A B]. unfold sig_field, SIG_MAX in *. split.
  - rewrite app_length, firstn_length, repeat_length. lia.
  - rewrite firstn_app, firstn_firstn, Nat.min_id, firstn_length.
    replace (N.to_nat (snd s) - Nat.min (N.to_nat (snd s)) (length (fst s)))%nat with 0%nat by lia.
    now rewrite firstn_O, app_nil_r.
Qed.

Section Signed.
Variables (ctz0 : nat) (held : network -> bool) (key1 key2 : option evp).
Variables (os : list call) (w : writer) (x : save) (w' : writer) (f : list N).
Hypothesis Call : Forall call_ok os.
Hypothesis Prog : program ctz0 held key1 key2 os = Ok w.
Hypothesis Write : write_to ctz0 held key1 key2 w x = Ok (0%Z, w', f).

Definition made (k : evp) (sg : list N) : Prop :=
  (ev_init k = 1%Z /\ (forall i, (i < updates f)%nat -> ev_update k i = 1%Z) /\ ev_final k (signed_part f) = (1%Z, sg)) \/
  (unreported (ev_init k) (ev_update k) /\ N.of_nat (length sg) = 2048).

Lemma signed :
  (forall k, key1 = Some k -> made k (signature1 f)) /\ (forall k, key2 = Some k -> made k (signature2 f)).
Proof using All.
  destruct (program_inv _ _ _ _ os w Call Prog) as [ss I]. revert Write. unfold write_to, writer_write.
  destruct ((s_version x =? 0) || _) eqn:V; cbn [negb].
  2:{ intros E. apply ok3 in E as (E & _ & _). discriminate. }
  destruct (write_sections _ _ _ _ w (s_now x)) as [[[w1 h] out]| | |] eqn:Q; cbn [bind]; try discriminate.
  destruct (write_sections_spec _ _ w _ ss x w1 h out I Q) as (ss' & e & offs & nets & D & I1 & S1 & S2 & Eh & Eo).
  assert (Z : enc_header h = plain h ++ repeat 0 (N.to_nat 4100) ++ repeat 0 32).
  { rewrite enc_header_plain, Eh. cbn [header_of h_sig1_length h_sig2_length h_sig1 h_sig2 h_padding].
    reflexivity. }
  assert (Pd : h_padding h = repeat 0 32%nat) by (rewrite Eh; reflexivity). clear Eh Eo D Q V.
  set (old := s_old x).
  match goal with |- context [overwrite (_ ++ ?g ++ out) old] => set (gap := g) end.
  set (f1 := overwrite ((MAGIC ++ [VERSION_1]) ++ gap ++ out) old).
  set (rest := skipn (N.to_nat 4200 + length out) old).
  assert (Lg : length gap = N.to_nat HEADER_SIZE).
  { unfold gap. rewrite firstn_length, app_length, repeat_length. lia. }
  assert (F1 : f1 = magic ++ gap ++ out ++ rest).
  { unfold f1, overwrite. rewrite <- !app_assoc. change (MAGIC ++ [VERSION_1] ++ gap ++ out ++ ?y) with (magic ++ gap ++ out ++ y) at 1.
    unfold magic. rewrite <- !app_assoc. do 4 f_equal. unfold rest. f_equal. rewrite !app_length, Lg. cbn [length]. unfold HEADER_SIZE.
    change (length MAGIC) with 7%nat. lia. }
  assert (A1 : firstn (N.to_nat MAGIC_SIZE) f1 = magic).
  { rewrite F1. change (N.to_nat MAGIC_SIZE) with (length magic). rewrite firstn_app, Nat.sub_diag, firstn_O, app_nil_r. apply firstn_all. }
  assert (A2 : skipn (N.to_nat (MAGIC_SIZE + HEADER_SIZE)) f1 = out ++ rest).
  { rewrite F1, app_assoc. replace (N.to_nat (MAGIC_SIZE + HEADER_SIZE)) with (length (magic ++ gap)).
    - rewrite skipn_app, skipn_all, Nat.sub_diag. reflexivity.
    - rewrite app_length, Lg. change (length magic) with 8%nat. unfold HEADER_SIZE, MAGIC_SIZE. lia. }
  assert (L8 : 8 <= N.of_nat (length f1)).
  { rewrite F1, app_length. change (length magic) with 8%nat. lia. }
  destruct (match key1 with Some k => create_signature k (enc_header h) f1 (w_sig1 w1) | None => Ok (0%Z, w_sig1 w1) end)
    as [[r1 s1]| | |] eqn:K1; cbn [bind]; try discriminate.
  destruct (Z.eqb_spec r1 0) as [->|R1]; cbn [negb].
  2:{ intros E. apply ok3 in E as (E & _ & _). contradiction. }
  change (w_sig2 (with_sigs w1 s1 (w_sig2 w1))) with (w_sig2 w1).
  destruct (match key2 with Some k => create_signature k (enc_header h) f1 (w_sig2 w1) | None => Ok (0%Z, w_sig2 w1) end)
    as [[r2 s2]| | |] eqn:K2; cbn [bind]; try discriminate.
  destruct (Z.eqb_spec r2 0) as [->|R2]; cbn [negb].
  2:{ intros E. apply ok3 in E as (E & _ & _). contradiction. }
  intros E. apply ok3 in E as (_ & _ & E).
  change (w_sig1 (with_sigs (with_sigs w1 s1 (w_sig2 w1)) (w_sig1 (with_sigs w1 s1 (w_sig2 w1))) s2)) with s1 in E.
  change (w_sig2 (with_sigs (with_sigs w1 s1 (w_sig2 w1)) (w_sig1 (with_sigs w1 s1 (w_sig2 w1))) s2)) with s2 in E.
  assert (O1 : sig_ok s1) by (exact (key_signature_ok _ _ _ _ _ _ (i_sig1 _ _ _ I1) K1)).
  assert (O2 : sig_ok s2) by (exact (key_signature_ok _ _ _ _ _ _ (i_sig2 _ _ _ I1) K2)).
  destruct (sig_field_spec s1 O1) as [Ls1 Fs1]. destruct (sig_field_spec s2 O2) as [Ls2 Fs2].
  assert (Fe : f = (magic ++ plain h) ++ to_be 2 (snd s1) ++ to_be 2 (snd s2) ++ sig_field s1 ++ sig_field s2 ++ repeat 0 32 ++ out ++ rest).
  { rewrite <- E. unfold overwrite. rewrite enc_header_plain, plain_sign.
    cbn [sign_header h_sig1_length h_sig2_length h_sig1 h_sig2 h_padding]. rewrite Pd. unfold magic. rewrite <- !app_assoc.
    do 11 f_equal. unfold rest. f_equal. rewrite !app_length, plain_length, !to_be_length, repeat_length. cbn [length].
    change (length MAGIC) with 7%nat. lia. }
  destruct (layout (magic ++ plain h) (snd s1) (snd s2) (sig_field s1) (sig_field s2) (repeat 0 32 ++ out ++ rest)) as (Y0 & Y1 & Y2).
  { rewrite app_length, plain_length. reflexivity. }
  { exact Ls1. } { exact Ls2. } { exact (proj2 O1). } { exact (proj2 O2). }
  rewrite <- Fe in Y0, Y1, Y2. rewrite Fs1 in Y1. rewrite Fs2 in Y2.
  assert (St : magic ++ enc_header h ++ out ++ rest = signed_part f).
  { rewrite Y0, Z, <- !app_assoc. reflexivity. }
  assert (U : updates f = (3 + N.to_nat (N.of_nat (length (out ++ rest)) / 65536))%nat).
  { unfold updates. rewrite Fe. rewrite !app_length, plain_length, !to_be_length, repeat_length. change (length magic) with 8%nat.
    replace (N.of_nat _ - 4200) with (N.of_nat (length out + length rest)) by lia. lia. }
  assert (G : forall key s0 s1, sig_ok s0 ->
     match key with Some k => create_signature k (enc_header h) f1 s0 | None => Ok (0%Z, s0) end = Ok (0%Z, s1) ->
     forall k, key = Some k -> made k (firstn (N.to_nat (snd s1)) (fst s1))).
  { intros key s0 s3 O K k Hk. rewrite Hk in K. apply create_spec in K; auto. cbv zeta in K. rewrite A1, A2, St in K. unfold made.
    destruct K as [(K1' & K2' & sg & K3' & K4')|[K1' K2']].
    - left. split; auto. split; [rewrite U; auto|]. now rewrite K4'.
    - right. split; auto. rewrite K2'. cbn [fst snd]. rewrite firstn_length. destruct O as [O _]. unfold SIG_MAX in *. lia. }
  rewrite Y1, Y2. split.
  - apply (G key1 (w_sig1 w1) s1); [apply I1|exact K1].
  - apply (G key2 (w_sig2 w1) s2); [apply I1|exact K2].
Qed.
End Signed.

Lemma end_to_end ctz0 held k1 key2 os w x w' f d vk :
  Forall call_ok os -> program ctz0 held (Some k1) key2 os = Ok w ->
  write_to ctz0 held (Some k1) key2 w x = Ok (0%Z, w', f) -> db_open f = Ok d ->
  ~ unreported (ev_init k1) (ev_update k1) ->
  (forall m s, ev_final k1 m = (1%Z, s) -> s <> [] /\ vf_final vk 0 m s = 1%Z) ->
  vf_key vk = true -> vf_init vk = 1%Z -> (forall i, vf_update vk i = 1%Z) ->
  (forall m s, vf_final vk 1 m s = 0%Z \/ vf_final vk 1 m s = 1%Z) ->
  verify d vk = Ok 0%Z.
Proof.
  intros C P W O U Co K I Up An. destruct (signed _ _ _ _ _ _ _ _ _ C P W) as [S1 _].
  destruct (S1 k1 eq_refl) as [(_ & _ & Ef)|[N _]]; [|contradiction]. destruct (Co _ _ Ef) as [Ne Va].
  apply (verify_iff f d vk O). split; auto. split; auto. split; auto.
  split; [right; auto|]. split; [|left; auto]. intros _. destruct (signature1 f); [contradiction|]. apply An.
Qed.

Lemma verify_total f d k : db_open f = Ok d -> verify d k = Ok 0%Z \/ verify d k = Ok 1%Z \/ verify d k = Ok (-1)%Z.
Proof.
  intros E. destruct (vf_key k) eqn:K.
  2:{ rewrite (verify_failing f d k E) by auto. rewrite K. auto. }
  destruct (Z.eq_dec (vf_init k) 1) as [I|I].
  2:{ rewrite (verify_failing f d k E) by auto. rewrite K. auto. }
  assert (D : (exists i, (i < updates f)%nat /\ vf_update k i <> 1%Z) \/ forall i, (i < updates f)%nat -> vf_update k i = 1%Z).
  { induction (updates f) as [|n [(i & Hi & Ui)|IH]]; [right; intros i Hi; lia|left; exists i; split; auto; lia|].
    destruct (Z.eq_dec (vf_update k n) 1) as [Un|Un]; [|left; exists n; split; auto].
    right. intros i Hi. destruct (Nat.eq_dec i n) as [->|]; auto. apply IH. lia. }
  destruct D as [D|D].
  - rewrite (verify_failing f d k E) by auto. rewrite K. auto.
  - rewrite (verify_spec f d k E K I D). cbv zeta. unfold sig_result.
    destruct (signature1 f); destruct (signature2 f); auto; repeat (destruct (negb _); auto); destruct (_ =? _)%Z; cbn [orb]; auto.
    destruct (_ =? _)%Z; auto.
Qed.

(** ** the signed part determines everything else *)
Lemma signed_part_nth f i : 4168 <= N.of_nat (length f) ->
  nth_error (signed_part f) i =
  if ((68 <=? i)%nat && (N.of_nat i <? 4168)) then Some 0 else nth_error f i.
Proof.
  intros L. unfold signed_part. assert (L1 : length (firstn 68 f) = 68%nat) by (rewrite firstn_length; lia).
  destruct (Nat.leb_spec 68 i) as [A|A]; cbn [andb].
  - rewrite nth_error_app2 by lia. rewrite L1. destruct (N.ltb_spec (N.of_nat i) 4168) as [B|B].
    + rewrite nth_error_app1 by (rewrite repeat_length; lia).
      rewrite (nth_error_nth' _ 0) by (rewrite repeat_length; lia). now rewrite nth_repeat.
    + rewrite nth_error_app2 by (rewrite repeat_length; lia). rewrite repeat_length.
      replace (i - 68 - N.to_nat 4100)%nat with (i - N.to_nat 4168)%nat by lia.
      rewrite <- (firstn_skipn (N.to_nat 4168) f) at 2. rewrite nth_error_app2; rewrite firstn_length.
      * f_equal. lia.
      * lia.
  - rewrite nth_error_app1 by lia. rewrite <- (firstn_skipn 68 f) at 2. symmetry. apply nth_error_app1. lia.
Qed.

Lemma signed_part_iff f g : 4168 <= N.of_nat (length f) -> 4168 <= N.of_nat (length g) ->
  (signed_part f = signed_part g <->
   length f = length g /\ forall i, (i < 68)%nat \/ 4168 <= N.of_nat i -> nth_error f i = nth_error g i).
Proof.
  intros Lf Lg. split.
  - intros E.
    assert (N1 : forall i, (i < 68)%nat \/ 4168 <= N.of_nat i -> nth_error f i = nth_error g i).
    { intros i Hi. pose proof (signed_part_nth f i Lf) as A. pose proof (signed_part_nth g i Lg) as B.
      replace ((68 <=? i)%nat && (N.of_nat i <? 4168)) with false in A, B by lia. congruence. }
    split; auto. apply (f_equal (@length N)) in E. unfold signed_part in E.
    rewrite !app_length, !firstn_length, !skipn_length, !repeat_length in E. lia.
  - intros [L E]. unfold signed_part. f_equal; [|f_equal].
    + assert (X : forall n l m, (forall i, (i < n)%nat -> nth_error l i = nth_error m i) -> firstn n l = firstn n m :> list N).
      { clear. induction n as [|n IH]; intros l m H; auto. pose proof (H 0%nat ltac:(lia)) as H0.
        destruct l as [|a l], m as [|b m]; cbn in H0; try discriminate; auto. injection H0 as <-. cbn [firstn]. f_equal.
        apply IH. intros i Hi. apply (H (S i)). lia. }
      apply X. auto.
    + assert (X : forall n l m, length l = length m -> (forall i, (n <= i)%nat -> nth_error l i = nth_error m i) -> skipn n l = skipn n m :> list N).
      { clear. induction n as [|n IH]; intros l m L H.
        - cbn [skipn]. revert m L H. induction l as [|a l IH]; intros [|b m] L H; try discriminate; auto.
          pose proof (H 0%nat ltac:(lia)) as H0. cbn in H0. injection H0 as <-. f_equal. apply IH; [now injection L|].
          intros i _. apply (H (S i)). lia.
        - destruct l as [|a l], m as [|b m]; try discriminate; auto. cbn [skipn]. apply IH; [now injection L|].
          intros i Hi. apply (H (S i)). lia. }
      apply X; auto. intros i Hi. apply E. lia.
Qed.

Lemma signed_stream ctz0 held key1 key2 os w x w' f :
  Forall call_ok os -> program ctz0 held key1 key2 os = Ok w ->
  write_to ctz0 held key1 key2 w x = Ok (0%Z, w', f) ->
  (forall k, key1 = Some k -> ~ unreported (ev_init k) (ev_update k) -> ev_final k (signed_part f) = (1%Z, signature1 f)) /\
  (forall k, key2 = Some k -> ~ unreported (ev_init k) (ev_update k) -> ev_final k (signed_part f) = (1%Z, signature2 f)).
Proof.
  intros C P W. destruct (signed _ _ _ _ _ _ _ _ _ C P W) as [S1 S2].
  split; intros k Hk U; [destruct (S1 k Hk) as [(_ & _ & E)|[N _]]|destruct (S2 k Hk) as [(_ & _ & E)|[N _]]]; auto; contradiction.
Qed.

Lemma signed_reported ctz0 held key1 key2 os w x w' f :
  Forall call_ok os -> program ctz0 held key1 key2 os = Ok w ->
  write_to ctz0 held key1 key2 w x = Ok (0%Z, w', f) ->
  forall k, key1 = Some k \/ key2 = Some k ->
  (ev_init k = 1%Z /\ (forall i, (i < updates f)%nat -> ev_update k i = 1%Z) /\ exists s, ev_final k (signed_part f) = (1%Z, s)) \/
  unreported (ev_init k) (ev_update k).
Proof.
  intros C P W. destruct (signed _ _ _ _ _ _ _ _ _ C P W) as [S1 S2]. intros k [Hk|Hk].
  - destruct (S1 k Hk) as [(A & B & E)|[N _]]; [left|right; exact N]. split; auto. split; auto. exists (signature1 f). exact E.
  - destruct (S2 k Hk) as [(A & B & E)|[N _]]; [left|right; exact N]. split; auto. split; auto. exists (signature2 f). exact E.
Qed.

Lemma verified_stream f d k : db_open f = Ok d ->
  vf_key k = true -> vf_init k = 1%Z -> (forall i, vf_update k i = 1%Z) ->
  signature1 f <> [] -> signature2 f = [] ->
  (verify d k = Ok 0%Z <-> vf_final k 0 (signed_part f) (signature1 f) = 1%Z).
Proof.
  intros O K I U N1 E2. rewrite (verify_iff f d k O). rewrite E2. unfold answered. split.
  - intros (_ & _ & _ & _ & _ & [[_ H]|[H _]]); auto. now destruct H.
  - intros H. split; auto. split; auto. split; auto. split; auto. split; [intros X; now destruct X|]. left. auto.
Qed.
