(** Proofs about reading from a file that fails (C88). *)
From Coq Require Import NArith ZArith List Bool Arith Lia ZifyBool ZifyNat ZifyN.
From Verif Require Import Base LemmasBase ModelFile ModelWriter ModelDatabase ModelVerify ModelReadIo SpecReadIo LemmasVerify.
Import ListNotations.
Open Scope N_scope.
Local Opaque CHUNK.

Section Read.
Variable fails : nat -> option nat.

Lemma firstn_le {A} n (l : list A) : (length (firstn n l) <= n)%nat.
Proof. rewrite firstn_length. lia. Qed.

(** ** the loop of loc_database_verify *)
Lemma walk_some upd fuel : forall i rest l, walk fails upd i rest fuel = Ok (Some l) ->
  concat l = rest /\ (length rest < length l * CHUNK)%nat /\ forall j, (i <= j < i + length l)%nat -> upd j = 1%Z.
Proof.
  assert (C : (0 < CHUNK)%nat) by (pose proof CHUNK_val; lia).
  induction fuel as [|fuel IH]; intros i rest l; cbn [walk]; [discriminate|].
  destruct (fread fails i CHUNK rest) as [[c rest'] eof] eqn:R.
  destruct (Z.eqb_spec (upd i) 1) as [U|U]; cbn [negb]; [|intros H; exfalso; congruence].
  assert (X : c ++ rest' = rest /\ (length c <= CHUNK)%nat /\ (eof = true -> rest' = [] /\ (length c < CHUNK)%nat)).
  { unfold fread in R. destruct (fails i) as [k|].
    - assert (Q := f_equal snd R). cbn [snd] in Q. assert (Q1 := f_equal (fun p => fst (fst p)) R). assert (Q2 := f_equal (fun p => snd (fst p)) R).
      cbn [fst snd] in Q1, Q2. subst c rest' eof. split; [apply firstn_skipn|]. split; [|discriminate].
      pose proof (firstn_le (Nat.min k (Nat.pred CHUNK)) rest). lia.
    - assert (Q := f_equal snd R). cbn [snd] in Q. assert (Q1 := f_equal (fun p => fst (fst p)) R). assert (Q2 := f_equal (fun p => snd (fst p)) R).
      cbn [fst snd] in Q1, Q2. subst c rest' eof. split; [apply firstn_skipn|]. split; [apply firstn_le|].
      intros L. apply Nat.ltb_lt in L. split; [apply skipn_all2; lia|]. rewrite firstn_length. lia. }
  destruct X as (X1 & X2 & X3). destruct eof.
  - intros H. assert (Q : l = [c]) by congruence. subst l. destruct (X3 eq_refl) as [-> X4]. rewrite app_nil_r in X1. subst c.
    split; [apply app_nil_r|]. split; [cbn [length]; lia|]. intros j J. cbn [length] in J. replace j with i by lia. exact U.
  - destruct (walk fails upd (S i) rest' fuel) as [[l'|]| | |] eqn:W; cbn [bind]; try discriminate.
    intros H. assert (Q : l = c :: l') by congruence. subst l. destruct (IH _ _ _ W) as (Y1 & Y2 & Y3).
    split; [cbn [concat]; now rewrite Y1|]. split; [rewrite <- X1, app_length; cbn [length]; lia|].
    intros j J. cbn [length] in J. destruct (Nat.eq_dec j i) as [->|]; [exact U|]. apply Y3. lia.
Qed.

Lemma walk_clean upd fuel : forall i rest, (forall j, (i <= j)%nat -> fails j = None) -> (length rest < fuel)%nat ->
  walk fails upd i rest fuel = Ok (match feed upd i (chunks rest fuel) with None => Some (chunks rest fuel) | Some _ => None end).
Proof.
  assert (C : (0 < CHUNK)%nat) by (pose proof CHUNK_val; lia).
  induction fuel as [|fuel IH]; intros i rest N L; [lia|]. cbn [walk chunks]. unfold fread. rewrite (N i (Nat.le_refl i)).
  destruct (Nat.ltb_spec (length rest) CHUNK) as [G|G].
  - cbn [feed]. destruct (upd i =? 1)%Z; cbn [negb]; [|reflexivity]. now rewrite firstn_all2 by lia.
  - cbn [feed]. destruct (upd i =? 1)%Z; cbn [negb]; [|reflexivity].
    rewrite IH; [|intros j J; apply N; lia|rewrite skipn_length; lia]. cbn [bind].
    now destruct (feed upd (S i) _).
Qed.

Lemma walk_more upd fuel : forall i rest fuel' r, walk fails upd i rest fuel = Ok r -> (fuel <= fuel')%nat -> walk fails upd i rest fuel' = Ok r.
Proof.
  induction fuel as [|fuel IH]; intros i rest fuel' r; cbn [walk]; [discriminate|].
  destruct fuel' as [|fuel']; [lia|]. intros H L. cbn [walk]. destruct (fread fails i CHUNK rest) as [[c rest'] eof].
  destruct (negb _); [exact H|]. destruct eof; [exact H|].
  destruct (walk fails upd (S i) rest' fuel) as [r'| | |] eqn:W; cbn [bind] in H; try discriminate.
  rewrite (IH _ _ fuel' _ W) by lia. exact H.
Qed.

(** It ends once nothing fails any more *)
Lemma walk_ends upd m : (forall j, (m <= j)%nat -> fails j = None) -> (forall j, upd j = 1%Z) ->
  forall n i rest, (m <= i + n)%nat -> exists l, walk fails upd i rest (n + S (length rest)) = Ok (Some l).
Proof.
  intros M U. induction n as [|n IH]; intros i rest L.
  - rewrite walk_clean; [|intros j J; apply M; lia|lia].
    assert (F : forall c, feed upd i c = None) by (intros c; apply feed_none; auto). rewrite F. eexists. reflexivity.
  - cbn [Nat.add walk]. destruct (fread fails i CHUNK rest) as [[c rest'] eof] eqn:R. rewrite U. cbn [Z.eqb negb].
    change (negb (Pos.eqb 1 1)) with false. cbn iota. destruct eof; [eexists; reflexivity|].
    destruct (IH (S i) rest') as [l W]; [lia|].
    assert (Lr : (length rest' <= length rest)%nat).
    { unfold fread in R. destruct (fails i); assert (Q2 := f_equal (fun p => snd (fst p)) R); cbn [fst snd] in Q2; subst rest'; rewrite skipn_length; lia. }
    rewrite (walk_more _ _ _ _ (n + S (length rest)) _ W) by lia. cbn [bind]. eexists. reflexivity.
Qed.

Lemma walk_endless upd fuel : (forall j, upd j = 1%Z) -> forall i rest, (forall j, (i <= j)%nat -> fails j <> None) ->
  walk fails upd i rest fuel = Fuel.
Proof.
  intros U. induction fuel as [|fuel IH]; intros i rest N; [reflexivity|]. cbn [walk]. unfold fread.
  pose proof (N i (Nat.le_refl i)) as Q. destruct (fails i) as [k|]; [|contradiction].
  rewrite U. change (negb (1 =? 1)%Z) with false. cbn iota. rewrite IH; [reflexivity|]. intros j J. apply N. lia.
Qed.

(** ** loc_database_verify *)
Definition decide (d : db) (k : verifier) (stream : list N) : outcome Z :=
  do r1 <- check_signature d k 0 stream (d_sig1 d);
  match r1 with
  | Some r => if negb ((r =? 0) || (r =? 1))%Z then Ok (-1)%Z
              else
                do r2 <- check_signature d k 1 stream (d_sig2 d);
                match r2 with
                | Some r' => if negb ((r' =? 0) || (r' =? 1))%Z then Ok (-1)%Z
                             else if ((r =? 1) || (r' =? 1))%Z then Ok 0%Z else Ok 1%Z
                | None => if (r =? 1)%Z then Ok 0%Z else Ok 1%Z
                end
  | None =>
      do r2 <- check_signature d k 0 stream (d_sig2 d);
      match r2 with
      | Some r' => if negb ((r' =? 0) || (r' =? 1))%Z then Ok (-1)%Z
                   else if (r' =? 1)%Z then Ok 0%Z else Ok 1%Z
      | None => Ok 1%Z
      end
  end.

Lemma fread_whole i n rest : (length (fst (fst (fread fails i n rest))) <? n)%nat = false -> (0 < n)%nat ->
  fails i = None /\ fread fails i n rest = (firstn n rest, skipn n rest, false) /\ (n <= length rest)%nat.
Proof.
  intros H P. unfold fread in *. apply Nat.ltb_ge in H. destruct (fails i) as [k|]; cbn [fst] in H.
  - pose proof (firstn_le (Nat.min k (Nat.pred n)) rest). lia.
  - rewrite firstn_length in H. split; [reflexivity|]. split; [|lia]. f_equal. apply Nat.ltb_ge. lia.
Qed.
Lemma fread_none i n rest : fails i = None -> fread fails i n rest = (firstn n rest, skipn n rest, (length rest <? n)%nat).
Proof. intros H. unfold fread. now rewrite H. Qed.

Definition M8 := N.to_nat MAGIC_SIZE.
Definition H8 := N.to_nat HEADER_SIZE.
Lemma M8_pos : (0 < M8)%nat.
Proof. unfold M8, MAGIC_SIZE. lia. Qed.
Lemma H8_pos : (0 < H8)%nat.
Proof. unfold H8, HEADER_SIZE. lia. Qed.
Definition tail_of (f : list N) := skipn (N.to_nat (MAGIC_SIZE + HEADER_SIZE)) f.
Lemma tail_eq f : skipn H8 (skipn M8 f) = tail_of f.
Proof. unfold tail_of, H8, M8. rewrite skipn_skipn. replace (N.to_nat HEADER_SIZE + N.to_nat MAGIC_SIZE)%nat with (N.to_nat (MAGIC_SIZE + HEADER_SIZE)) by lia. reflexivity. Qed.
Definition head_of (f : list N) := firstn M8 f ++ clear_header (firstn H8 (skipn M8 f)).

Lemma verify_decide d k : flen (d_file d) >= MAGIC_SIZE + HEADER_SIZE -> vf_key k = true -> vf_init k = 1%Z ->
  vf_update k 0 = 1%Z -> vf_update k 1 = 1%Z ->
  verify d k = match feed (vf_update k) 2 (read_chunks (tail_of (d_file d))) with
               | Some _ => Ok 1%Z
               | None => decide d k (head_of (d_file d) ++ tail_of (d_file d))
               end.
Proof.
  intros L K I0 U0 U1. unfold verify. rewrite K, I0, U0, U1. change (negb true) with false. change (negb (1 =? 1)%Z) with false. cbn iota.
  replace (flen (d_file d) <? MAGIC_SIZE) with false by lia.
  replace (flen (d_file d) <? MAGIC_SIZE + HEADER_SIZE) with false by lia.
  change (skipn (N.to_nat (MAGIC_SIZE + HEADER_SIZE)) (d_file d)) with (tail_of (d_file d)).
  destruct (feed _ _ _); [reflexivity|]. unfold decide, head_of. cbv zeta. cbn [concat].
  rewrite concat_read_chunks, <- app_assoc. reflexivity.
Qed.
Lemma verify_io_decide d k fuel : fails 0 = None -> fails 1 = None ->
  flen (d_file d) >= MAGIC_SIZE + HEADER_SIZE -> vf_key k = true -> vf_init k = 1%Z ->
  vf_update k 0 = 1%Z -> vf_update k 1 = 1%Z ->
  verify_io fails d k fuel = do r <- walk fails (vf_update k) 2 (tail_of (d_file d)) fuel;
    match r with None => Ok 1%Z | Some l => decide d k (head_of (d_file d) ++ concat l) end.
Proof.
  intros F0 F1 L K I0 U0 U1. unfold verify_io. rewrite K, I0, U0, U1. change (negb true) with false. change (negb (1 =? 1)%Z) with false. cbn iota.
  unfold flen in L. rewrite !(fread_none _ _ _ F0), !(fread_none _ _ _ F1). fold M8 H8.
  replace (length (firstn M8 (d_file d)) <? M8)%nat with false by (symmetry; apply Nat.ltb_ge; rewrite firstn_length; unfold M8; lia).
  replace (length (firstn H8 (skipn M8 (d_file d))) <? H8)%nat with false
    by (symmetry; apply Nat.ltb_ge; rewrite firstn_length, skipn_length; unfold M8, H8; lia).
  rewrite tail_eq. destruct (walk _ _ _ _ _) as [[l|]| | |]; cbn [bind]; try reflexivity.
  unfold decide, head_of. cbv zeta. cbn [concat]. rewrite <- app_assoc. reflexivity.
Qed.

(** What must hold if it gets to the loop *)
Definition started (d : db) (k : verifier) : Prop :=
  vf_key k = true /\ vf_init k = 1%Z /\ vf_update k 0 = 1%Z /\ vf_update k 1 = 1%Z /\ flen (d_file d) >= MAGIC_SIZE + HEADER_SIZE.
Lemma io_started d k fuel : verify_io fails d k fuel = Ok 0%Z -> started d k /\ fails 0 = None /\ fails 1 = None.
Proof.
  unfold verify_io, started. destruct (vf_key k); cbn [negb]; [|intros H; exfalso; congruence].
  destruct (Z.eqb_spec (vf_init k) 1) as [A|A]; cbn [negb]; [|intros H; exfalso; congruence].
  destruct (length (fst (fst (fread fails 0 M8 (d_file d)))) <? M8)%nat eqn:L0.
  { fold M8. destruct (fread fails 0 M8 (d_file d)) as [[m f1] e]. cbn [fst] in L0. rewrite L0. intros H. exfalso. congruence. }
  pose proof L0 as L0'. apply fread_whole in L0 as (F0 & E0 & N0); [|exact M8_pos]. fold M8. rewrite E0. rewrite E0 in L0'. cbn [fst] in L0'. rewrite L0'.
  destruct (Z.eqb_spec (vf_update k 0) 1) as [B|B]; cbn [negb]; [|intros H; exfalso; congruence].
  destruct (length (fst (fst (fread fails 1 H8 (skipn M8 (d_file d))))) <? H8)%nat eqn:L1.
  { fold H8. destruct (fread fails 1 H8 _) as [[m f1] e]. cbn [fst] in L1. rewrite L1. intros H. exfalso. congruence. }
  pose proof L1 as L1'. apply fread_whole in L1 as (F1 & E1 & N1); [|exact H8_pos]. fold H8. rewrite E1. rewrite E1 in L1'. cbn [fst] in L1'. rewrite L1'.
  destruct (Z.eqb_spec (vf_update k 1) 1) as [D|D]; cbn [negb]; [|intros H; exfalso; congruence].
  intros _. rewrite skipn_length in N1. unfold flen, M8, H8 in *. split; [|split; assumption].
  split; [reflexivity|]. split; [exact A|]. split; [exact B|]. split; [exact D|]. lia.
Qed.

Theorem verified d k fuel : verify_io fails d k fuel = Ok 0%Z -> verify d k = Ok 0%Z.
Proof.
  intros H. destruct (io_started _ _ _ H) as ((K & I0 & U0 & U1 & L) & F0 & F1).
  rewrite verify_io_decide in H by assumption. rewrite verify_decide by assumption.
  destruct (walk _ _ _ _ _) as [[l|]| | |] eqn:W; cbn [bind] in H; try discriminate.
  destruct (walk_some _ _ _ _ _ W) as (C & B & U). rewrite C in H.
  replace (feed _ _ _) with (@None (nat * Z)); [exact H|]. symmetry. apply feed_none. intros j J. apply U.
  rewrite length_read_chunks in J. pose proof CHUNK_val as CV.
  assert (N.of_nat (length (tail_of (d_file d))) / 65536 < N.of_nat (length l)).
  { apply N.div_lt_upper_bound; lia. }
  lia.
Qed.

Theorem agree d k fuel : never fails -> (length (d_file d) < fuel)%nat -> verify_io fails d k fuel = verify d k.
Proof.
  intros N L. unfold verify_io, verify. destruct (negb (vf_key k)); [reflexivity|]. destruct (negb (vf_init k =? 1)%Z); [reflexivity|].
  rewrite !(fread_none _ _ _ (N 0%nat)), !(fread_none _ _ _ (N 1%nat)). fold M8 H8.
  assert (A : (length (firstn M8 (d_file d)) <? M8)%nat = (flen (d_file d) <? MAGIC_SIZE)).
  { rewrite firstn_length. unfold flen, M8. lia. }
  rewrite A. destruct (flen (d_file d) <? MAGIC_SIZE) eqn:A'; [reflexivity|]. destruct (negb (vf_update k 0 =? 1)%Z); [reflexivity|].
  assert (B : (length (firstn H8 (skipn M8 (d_file d))) <? H8)%nat = (flen (d_file d) <? MAGIC_SIZE + HEADER_SIZE)).
  { rewrite firstn_length, skipn_length. unfold flen, M8, H8 in *. lia. }
  rewrite B. destruct (flen (d_file d) <? MAGIC_SIZE + HEADER_SIZE); [reflexivity|]. cbv zeta.
  destruct (negb (vf_update k 1 =? 1)%Z); [reflexivity|].
  rewrite tail_eq. fold (tail_of (d_file d)).
  assert (Lt : (length (tail_of (d_file d)) <= length (d_file d))%nat) by (unfold tail_of; rewrite skipn_length; lia).
  pose proof (walk_clean (vf_update k) (S (length (tail_of (d_file d)))) 2 (tail_of (d_file d)) (fun j _ => N j) ltac:(lia)) as W.
  fold (read_chunks (tail_of (d_file d))) in W.
  rewrite (walk_more _ _ _ _ fuel _ W) by lia. cbn [bind]. now destruct (feed _ _ _).
Qed.

Theorem retried d k : now_and_then fails -> (forall j, vf_update k j = 1%Z) -> exists least, forall fuel, (least <= fuel)%nat ->
  verify_io fails d k fuel = verify d k.
Proof.
  intros (F0 & F1 & m & M) U.
  destruct (walk_ends (vf_update k) m M U m 2 (tail_of (d_file d))) as [l W]; [lia|].
  exists (m + S (length (tail_of (d_file d))))%nat. intros fuel L.
  destruct (vf_key k) eqn:K; [|unfold verify_io, verify; now rewrite K].
  destruct (Z.eqb_spec (vf_init k) 1) as [I0|I0]; [|unfold verify_io, verify; rewrite K; apply Z.eqb_neq in I0; now rewrite I0].
  destruct (N.ltb_spec (flen (d_file d)) (MAGIC_SIZE + HEADER_SIZE)) as [S0|S0].
  - unfold verify_io, verify. rewrite K, I0, !U. change (negb true) with false. change (negb (1 =? 1)%Z) with false. cbn iota.
    rewrite !(fread_none _ _ _ F0), !(fread_none _ _ _ F1). fold M8 H8.
    assert (A : (length (firstn M8 (d_file d)) <? M8)%nat = (flen (d_file d) <? MAGIC_SIZE)).
    { rewrite firstn_length. unfold flen, M8. lia. }
    rewrite A. destruct (flen (d_file d) <? MAGIC_SIZE) eqn:A'; [reflexivity|].
    assert (B : (length (firstn H8 (skipn M8 (d_file d))) <? H8)%nat = true).
    { rewrite firstn_length, skipn_length. unfold flen, M8, H8 in *. lia. }
    rewrite B. replace (flen (d_file d) <? MAGIC_SIZE + HEADER_SIZE) with true by lia. reflexivity.
  - rewrite verify_io_decide by (auto; lia). rewrite verify_decide by (auto; lia).
    rewrite (walk_more _ _ _ _ fuel _ W L). cbn [bind]. destruct (walk_some _ _ _ _ _ W) as (C & _ & _). rewrite C.
    replace (feed _ _ _) with (@None (nat * Z)); [reflexivity|]. symmetry. apply feed_none. auto.
Qed.

Theorem verify_endless d k fuel : for_ever fails -> vf_key k = true -> vf_init k = 1%Z -> (forall j, vf_update k j = 1%Z) ->
  MAGIC_SIZE + HEADER_SIZE <= flen (d_file d) -> verify_io fails d k fuel = Fuel.
Proof.
  intros (F0 & F1 & N) K I0 U L. rewrite verify_io_decide by (auto; lia). now rewrite walk_endless.
Qed.

(** ** loc_writer_create_signature *)
Lemma sign_some upd fuel : forall i rest l, walk_sign fails upd i rest fuel = Ok (inr l) -> (length rest < fuel)%nat ->
  l = chunks rest fuel /\ (forall j, (i <= j < i + length l)%nat -> fails j = None) /\ feed upd (S i) l = None.
Proof.
  assert (C : (0 < CHUNK)%nat) by (pose proof CHUNK_val; lia).
  induction fuel as [|fuel IH]; intros i rest l; cbn [walk_sign]; [discriminate|].
  unfold fread. destruct (fails i) as [k|] eqn:F; [intros H; exfalso; congruence|].
  destruct (negb (upd (S i) =? 1)%Z) eqn:U; [intros H; exfalso; congruence|]. apply negb_false_iff in U. cbn [chunks].
  destruct (Nat.ltb_spec (length rest) CHUNK) as [G|G]; intros H L.
  - assert (Q : l = [firstn CHUNK rest]) by congruence. subst l. rewrite firstn_all2 by lia. split; [reflexivity|]. cbn [feed length]. rewrite U.
    split; [|reflexivity]. intros j J. now replace j with i by lia.
  - destruct (walk_sign fails upd (S i) (skipn CHUNK rest) fuel) as [[z|l']| | |] eqn:W; cbn [bind] in H; try discriminate.
    assert (Q : l = firstn CHUNK rest :: l') by congruence. subst l.
    destruct (IH _ _ _ W) as (Y1 & Y2 & Y3); [rewrite skipn_length; lia|].
    split; [now rewrite <- Y1|]. cbn [feed length]. rewrite U. split; [|exact Y3].
    intros j J. destruct (Nat.eq_dec j i) as [->|]; [exact F|]. apply Y2. lia.
Qed.
Lemma sign_clean upd fuel : forall i rest, (forall j, (i <= j)%nat -> fails j = None) -> (length rest < fuel)%nat ->
  walk_sign fails upd i rest fuel = Ok (match feed upd (S i) (chunks rest fuel) with None => inr (chunks rest fuel) | Some _ => inl (-1)%Z end).
Proof.
  assert (C : (0 < CHUNK)%nat) by (pose proof CHUNK_val; lia).
  induction fuel as [|fuel IH]; intros i rest N L; [lia|]. cbn [walk_sign chunks]. unfold fread. rewrite (N i (Nat.le_refl i)).
  destruct (Nat.ltb_spec (length rest) CHUNK) as [G|G].
  - cbn [feed]. destruct (upd (S i) =? 1)%Z; cbn [negb]; [|reflexivity]. now rewrite firstn_all2 by lia.
  - cbn [feed]. destruct (upd (S i) =? 1)%Z; cbn [negb]; [|reflexivity].
    rewrite IH; [|intros j J; apply N; lia|rewrite skipn_length; lia]. cbn [bind].
    now destruct (feed upd (S (S i)) _).
Qed.
Lemma chunks_more fuel : forall l fuel', (length l < fuel)%nat -> (length l < fuel')%nat -> chunks l fuel = chunks l fuel'.
Proof.
  assert (C : (0 < CHUNK)%nat) by (pose proof CHUNK_val; lia).
  induction fuel as [|fuel IH]; intros l fuel' A B; [lia|]. destruct fuel' as [|fuel']; [lia|]. cbn [chunks].
  destruct (Nat.ltb_spec (length l) CHUNK) as [G|G]; [reflexivity|]. f_equal. apply IH; rewrite skipn_length; lia.
Qed.
Lemma feed_late upd l : forall i p, feed upd i l = Some p -> (i <= fst p)%nat.
Proof.
  induction l as [|x l IH]; intros i p; cbn [feed]; [discriminate|]. destruct (upd i =? 1)%Z.
  - intros H. apply IH in H. lia.
  - intros H. assert (Q : p = (i, upd i)) by congruence. subst p. cbn [fst]. lia.
Qed.

Theorem signed k h f sig fuel s' : create_signature_io fails k h f sig fuel = Ok (0%Z, s') -> (length f < fuel)%nat ->
  create_signature k h f sig = Ok (0%Z, s') /\
  (ev_init k = 1%Z -> ev_update k 0 = 1%Z -> ev_update k 1 = 1%Z ->
   fails 0 = None /\ forall j, (1 <= j <= length (read_chunks (tail_of f)))%nat -> fails j = None).
Proof.
  intros H L. unfold create_signature_io in H. unfold create_signature.
  destruct (Z.eqb_spec (ev_init k) 1) as [I0|I0]; cbn [negb] in *; [|split; [exact H|intros; contradiction]].
  fold M8 in H.
  destruct (length (fst (fst (fread fails 0 M8 f))) <? M8)%nat eqn:L0.
  { destruct (fread fails 0 M8 f) as [[m f1] e]. cbn [fst] in L0. rewrite L0 in H. exfalso. congruence. }
  pose proof L0 as L0'. apply fread_whole in L0 as (F0 & E0 & N0); [|exact M8_pos]. rewrite E0 in H, L0'. cbn [fst] in L0'. rewrite L0' in H.
  replace (N.of_nat (length f) <? MAGIC_SIZE) with false by (unfold M8 in N0; lia).
  cbv zeta. cbn [feed].
  destruct (Z.eqb_spec (ev_update k 0) 1) as [V0|V0]; cbn [negb] in H; [|split; [exact H|intros; contradiction]].
  destruct (Z.eqb_spec (ev_update k 1) 1) as [V1|V1]; cbn [negb] in H; [|split; [exact H|intros; contradiction]].
  fold (tail_of f) in *.
  assert (Lt : (length (tail_of f) <= length f)%nat) by (unfold tail_of; rewrite skipn_length; lia).
  destruct (walk_sign fails (ev_update k) 1 (tail_of f) fuel) as [[z|l]| | |] eqn:W; cbn [bind] in H; try discriminate.
  - exfalso. revert W H. clear. intros W H. assert (Q : z = 0%Z) by congruence. subst z. clear H.
    revert W. generalize 1%nat (tail_of f). induction fuel as [|fuel IH]; intros i rest; cbn [walk_sign]; [discriminate|].
    destruct (fread fails i CHUNK rest) as [[c rest'] eof]. destruct (fails i); [intros H; congruence|].
    destruct (negb _); [intros H; congruence|]. destruct eof; [intros H; congruence|].
    destruct (walk_sign fails (ev_update k) (S i) rest' fuel) as [[z|l]| | |] eqn:W; cbn [bind]; try discriminate; intros H.
    assert (Q : z = 0%Z) by congruence. subst z. exact (IH _ _ W).
  - destruct (sign_some _ _ _ _ _ W) as (Y1 & Y2 & Y3); [lia|].
    assert (Q : l = read_chunks (tail_of f)) by (rewrite Y1; unfold read_chunks; apply chunks_more; lia).
    rewrite <- Q. rewrite Y3. fold M8. split; [exact H|]. intros _ _ _. split; [exact F0|]. intros j J. apply Y2. lia.
Qed.

Theorem sign_same k h f sig fuel : never fails -> (length f < fuel)%nat ->
  create_signature_io fails k h f sig fuel = create_signature k h f sig.
Proof.
  intros N L. unfold create_signature_io, create_signature. destruct (negb (ev_init k =? 1)%Z); [reflexivity|].
  rewrite !(fread_none _ _ _ (N 0%nat)). fold M8 (tail_of f).
  assert (A : (length (firstn M8 f) <? M8)%nat = (N.of_nat (length f) <? MAGIC_SIZE)).
  { rewrite firstn_length. unfold M8. lia. }
  rewrite A. destruct (N.of_nat (length f) <? MAGIC_SIZE); [reflexivity|]. cbv zeta. cbn [feed].
  destruct (ev_update k 0 =? 1)%Z; cbn [negb]; [|reflexivity].
  destruct (ev_update k 1 =? 1)%Z; cbn [negb]; [|reflexivity].
  assert (Lt : (length (tail_of f) <= length f)%nat) by (unfold tail_of; rewrite skipn_length; lia).
  rewrite sign_clean by (auto; lia).
  rewrite (chunks_more fuel (tail_of f) (S (length (tail_of f)))) by lia. fold (read_chunks (tail_of f)). cbn [bind].
  destruct (feed (ev_update k) 2 (read_chunks (tail_of f))) as [[i r]|] eqn:F; [|reflexivity].
  apply feed_late in F. cbn [fst] in F. now replace (i <? 2)%nat with false by lia.
Qed.
End Read.
