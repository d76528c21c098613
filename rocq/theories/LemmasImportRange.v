(** Address ranges as networks *)
From Coq Require Import NArith ZArith List Bool Lia ZifyBool ZifyNat ZifyN Sorted.
From Verif Require Import Base ModelCountryCode ModelImport SpecImport.
Import ListNotations.
Open Scope N_scope.

Lemma pow_pos : forall k, 0 < 2 ^ k.
Proof. intro. apply N.neq_0_lt_0, N.pow_nonzero. lia. Qed.

(** every number is an odd one times a power of two *)
Lemma odd_part : forall n, n <> 0 -> exists k m, n = 2 ^ k * (2 * m + 1).
Proof.
  intro n. induction n as [n IH] using (well_founded_induction N.lt_wf_0). intro NZ.
  destruct (N.even n) eqn:E.
  - apply N.even_spec in E. destruct E as [x E]. destruct (IH x) as (k & m & H); try lia.
    exists (N.succ k), m. rewrite N.pow_succ_r'. lia.
  - assert (O : N.odd n = true) by (rewrite <- N.negb_even, E; reflexivity).
    apply N.odd_spec in O. destruct O as [x O]. exists 0, x. cbn [N.pow]. lia.
Qed.

Lemma size_ones : forall k, N.size (N.ones k) = k.
Proof.
  intro k. destruct (N.eq_dec k 0) as [->|K]; [reflexivity|].
  rewrite N.size_log2. { rewrite N.ones_equiv, N.log2_pred_pow2 by lia. lia. }
  rewrite N.ones_equiv. pose proof (N.pow_gt_1 2 k). lia.
Qed.

Lemma ldiff_ones : forall k m, N.ldiff (2 ^ k * (2 * m + 1) - 1) (2 ^ k * (2 * m + 1)) = N.ones k.
Proof.
  intros k m. pose proof (pow_pos k) as P.
  assert (A : 2 ^ k * (2 * m + 1) - 1 = (2 ^ k - 1) + 2 * m * 2 ^ k) by (rewrite N.mul_add_distr_l; lia).
  apply N.bits_inj. intro i. rewrite N.ldiff_spec.
  destruct (N.lt_ge_cases i k) as [L|L].
  - rewrite N.ones_spec_low by lia. rewrite (N.mul_comm (2 ^ k)), N.mul_pow2_bits_low by lia.
    rewrite N.mul_comm in A. rewrite A. rewrite <- (N.mod_pow2_bits_low _ k) by lia.
    rewrite N.mod_add by lia. rewrite N.mod_pow2_bits_low by lia.
    rewrite N.sub_1_r, <- N.ones_equiv, N.ones_spec_low by lia. reflexivity.
  - rewrite N.ones_spec_high by lia.
    replace i with ((i - k) + k) by lia.
    rewrite <- !N.div_pow2_bits. rewrite A.
    rewrite N.div_add by lia. rewrite N.div_small by lia. rewrite (N.mul_comm (2 ^ k)), N.div_mul by lia.
    destruct (N.eq_dec (i - k) 0) as [->|D].
    + rewrite N.add_0_l, N.testbit_even_0, N.testbit_odd_0. reflexivity.
    + replace (i - k) with (N.succ (i - k - 1)) by lia.
      rewrite N.add_0_l, N.testbit_even_succ, N.testbit_odd_succ by lia.
      destruct (N.testbit m (i - k - 1)); reflexivity.
Qed.

Lemma zero_bits_odd : forall bits k m, 2 ^ k * (2 * m + 1) < 2 ^ bits -> zero_bits bits (2 ^ k * (2 * m + 1)) = k.
Proof.
  intros bits k m L. unfold zero_bits. pose proof (pow_pos k) as P.
  assert (NZ : 2 ^ k * (2 * m + 1) <> 0) by (apply N.neq_mul_0; lia).
  destruct (N.eqb_spec (2 ^ k * (2 * m + 1)) 0) as [E|_]; [contradiction|].
  rewrite ldiff_ones, size_ones. apply N.min_r.
  assert (2 ^ k < 2 ^ bits).
  { eapply N.le_lt_trans; [|exact L]. rewrite <- (N.mul_1_r (2 ^ k)) at 1. apply N.mul_le_mono_l. lia. }
  apply N.pow_lt_mono_r_iff in H; lia.
Qed.

(** [first] is a multiple of that power of two, and of no larger one *)
Lemma zero_bits_divides : forall bits n, n < 2 ^ bits -> n mod 2 ^ zero_bits bits n = 0.
Proof.
  intros bits n L. destruct (N.eq_dec n 0) as [->|NZ].
  { apply N.mod_0_l, N.pow_nonzero. lia. }
  destruct (odd_part n NZ) as (k & m & ->). rewrite zero_bits_odd by exact L.
  rewrite N.mul_comm. apply N.mod_mul, N.pow_nonzero. lia.
Qed.
Lemma zero_bits_max : forall bits n k, n < 2 ^ bits -> k <= bits -> n mod 2 ^ k = 0 -> k <= zero_bits bits n.
Proof.
  intros bits n j L B M. destruct (N.eq_dec n 0) as [->|NZ]; [exact B|].
  destruct (odd_part n NZ) as (k & m & ->). rewrite zero_bits_odd by exact L.
  destruct (N.le_gt_cases j k) as [G|G]; [exact G|exfalso].
  apply N.mod_divides in M; [|apply N.pow_nonzero; lia]. destruct M as [x M].
  replace j with (k + (1 + (j - k - 1))) in M by lia. rewrite !N.pow_add_r, <- !N.mul_assoc in M.
  apply N.mul_cancel_l in M; [|apply N.pow_nonzero; lia].
  change (2 ^ 1) with 2 in M. lia.
Qed.
Lemma zero_bits_le : forall bits n, zero_bits bits n <= bits.
Proof. intros. unfold zero_bits. destruct (n =? 0); lia. Qed.

(** adding the lowest bit clears it *)
Lemma zero_bits_next : forall bits n, n <> 0 -> n < 2 ^ bits ->
  (n + 2 ^ zero_bits bits n) mod 2 ^ (zero_bits bits n + 1) = 0.
Proof.
  intros bits n NZ L. destruct (odd_part n NZ) as (k & m & ->). rewrite zero_bits_odd by exact L.
  replace (2 ^ k * (2 * m + 1) + 2 ^ k) with ((m + 1) * 2 ^ (k + 1)).
  { apply N.mod_mul, N.pow_nonzero. lia. }
  rewrite N.pow_add_r. change (2 ^ 1) with 2. lia.
Qed.

Lemma mod_pow_le : forall n j k, j <= k -> n mod 2 ^ k = 0 -> n mod 2 ^ j = 0.
Proof.
  intros n j k L M. apply N.mod_divides in M; [|apply N.pow_nonzero; lia]. destruct M as [x ->].
  replace k with (j + (k - j)) by lia. rewrite N.pow_add_r, <- N.mul_assoc, N.mul_comm.
  apply N.mod_mul, N.pow_nonzero. lia.
Qed.
Lemma mod_add_0 : forall a b c, c <> 0 -> a mod c = 0 -> b mod c = 0 -> (a + b) mod c = 0.
Proof. intros a b c C A B. rewrite N.add_mod, A, B by exact C. apply N.mod_0_l. exact C. Qed.

(** size of the rest *)
Lemma size_bounds : forall r, 0 < r -> 2 ^ (N.size r - 1) <= r < 2 ^ N.size r /\ 0 < N.size r.
Proof.
  intros r R. rewrite N.size_log2 by lia. pose proof (N.log2_spec r R) as [A B].
  replace (N.succ (N.log2 r) - 1) with (N.log2 r) by lia. lia.
Qed.
Lemma size_le : forall r k, r < 2 ^ k -> N.size r <= k.
Proof.
  intros r k L. destruct (N.eq_dec r 0) as [->|R]; [cbn; lia|].
  rewrite N.size_log2 by exact R. apply N.le_succ_l. apply N.log2_lt_pow2; lia.
Qed.

Section Range.
  Variables bits last : N.
  Hypothesis family : bits = 32 \/ bits = 128.
  Hypothesis last_ok : last < 2 ^ bits.

  (** the block taken next *)
  Definition step (first : N) : N := N.min (zero_bits bits first) (N.size (last - first + 1) - 1).
  Lemma step_facts : forall first, first <= last ->
    step first <= bits /\ first mod 2 ^ step first = 0 /\ first + 2 ^ step first <= last + 1.
  Proof.
    intros first F. unfold step.
    pose proof (zero_bits_le bits first) as Z. split; [lia|]. split.
    - eapply mod_pow_le; [|apply (zero_bits_divides bits); lia]. lia.
    - destruct (size_bounds (last - first + 1)) as [[A _] _]; [lia|].
      assert (2 ^ N.min (zero_bits bits first) (N.size (last - first + 1) - 1) <= 2 ^ (N.size (last - first + 1) - 1)).
      { apply N.pow_le_mono_r; lia. }
      lia.
  Qed.
  (** no aligned block that starts here is larger *)
  Lemma step_max : forall first k, first <= last -> k <= bits -> first mod 2 ^ k = 0 ->
    first + 2 ^ k <= last + 1 -> k <= step first.
  Proof.
    intros first k F K M L. unfold step. apply N.min_glb.
    - apply zero_bits_max; [lia|exact K|exact M].
    - assert (k < N.size (last - first + 1)); [|lia].
      destruct (size_bounds (last - first + 1)) as [[_ B] _]; [lia|].
      apply (N.pow_lt_mono_r_iff 2); lia.
  Qed.

  Inductive tiles : N -> list pnet -> Prop :=
    | tiles_end : tiles (last + 1) []
    | tiles_cons : forall first l, first <= last -> tiles (first + 2 ^ step first) l ->
        tiles first (mkP bits first (bits - step first) :: l).

  (** fuel *)
  Definition late (first : N) : Prop := N.size (last - first + 1) <= zero_bits bits first.
  Lemma range_late : forall fuel first, first <= last + 1 -> first <> 0 -> (first <= last -> first < 2 ^ bits) ->
    (first = last + 1 \/ late first) ->
    (N.to_nat (N.size (last + 1 - first)) < fuel)%nat ->
    exists l, summarize_range fuel bits first last = Some l /\ tiles first l.
  Proof.
    induction fuel as [|fuel IH]; intros first F NZ B L FU; [lia|]. cbn [summarize_range].
    destruct (N.ltb_spec last first) as [G|G].
    { exists []. split; [reflexivity|]. replace first with (last + 1) by lia. constructor. }
    destruct L as [L|L]; [lia|]. unfold late in L.
    fold (step first).
    pose proof (step_facts first G) as (S1 & S2 & S3).
    assert (SE : step first = N.size (last - first + 1) - 1) by (unfold step; lia).
    destruct (size_bounds (last - first + 1)) as [[Q1 Q2] Q3]; [lia|].
    assert (P2 : 2 ^ N.size (last - first + 1) = 2 * 2 ^ step first).
    { rewrite SE. rewrite <- N.pow_succ_r'. f_equal. lia. }
    pose proof (pow_pos (step first)) as PP.
    destruct (N.eqb_spec (first + 2 ^ step first - 1) (2 ^ bits - 1)) as [E|E].
    { eexists. split; [reflexivity|]. replace (bits - step first) with (bits - step first) by reflexivity.
      apply tiles_cons; [exact G|]. replace (first + 2 ^ step first) with (last + 1) by lia. constructor. }
    destruct (IH (first + 2 ^ step first)) as (l & A & T); try lia.
    - destruct (N.eq_dec (first + 2 ^ step first) (last + 1)) as [e|ne]; [left; exact e|right].
      unfold late. eapply N.le_trans with (m := step first).
      + apply size_le. lia.
      + apply zero_bits_max; [lia|exact S1|].
        apply mod_add_0; [apply N.pow_nonzero; lia|exact S2|apply N.mod_same, N.pow_nonzero; lia].
    - assert (N.size (last + 1 - (first + 2 ^ step first)) <= step first) by (apply size_le; lia).
      replace (last + 1 - first) with (last - first + 1) in FU by lia. lia.
    - rewrite A. eexists. split; [reflexivity|]. apply tiles_cons; [exact G|exact T].
  Qed.
  Lemma range_early : forall fuel first, first <= last ->
    (N.to_nat (bits - zero_bits bits first) + N.to_nat bits + 1 < fuel)%nat ->
    exists l, summarize_range fuel bits first last = Some l /\ tiles first l.
  Proof.
    induction fuel as [|fuel IH]; intros first F FU; [lia|]. cbn [summarize_range].
    destruct (N.ltb_spec last first) as [G|_]; [lia|].
    fold (step first).
    pose proof (step_facts first F) as (S1 & S2 & S3).
    pose proof (pow_pos (step first)) as PP.
    destruct (size_bounds (last - first + 1)) as [[Q1 Q2] Q3]; [lia|].
    destruct (N.eqb_spec (first + 2 ^ step first - 1) (2 ^ bits - 1)) as [E|E].
    { eexists. split; [reflexivity|].
      apply tiles_cons; [exact F|]. replace (first + 2 ^ step first) with (last + 1) by lia. constructor. }
    destruct (N.eq_dec (first + 2 ^ step first) (last + 1)) as [e|ne].
    { destruct fuel as [|fuel]; [lia|]. cbn [summarize_range].
      destruct (N.ltb_spec last (first + 2 ^ step first)) as [G|G]; [|lia].
      eexists. split; [reflexivity|]. apply tiles_cons; [exact F|]. rewrite e. constructor. }
    destruct (N.lt_ge_cases (zero_bits bits first) (N.size (last - first + 1) - 1)) as [L|L].
    - (* still growing *)
      assert (SE : step first = zero_bits bits first) by (unfold step; lia).
      assert (NZ : first <> 0).
      { intros ->. unfold zero_bits in L. cbn [N.eqb] in L.
        assert (N.size (last - 0 + 1) <= bits + 1); [|lia].
        apply size_le. rewrite (N.add_1_r bits), N.pow_succ_r'. lia. }
      destruct (IH (first + 2 ^ step first)) as (l & A & T); try lia.
      + assert (step first + 1 <= zero_bits bits (first + 2 ^ step first)); [|pose proof (zero_bits_le bits (first + 2 ^ step first)); lia].
        apply zero_bits_max; try lia.
        * destruct (N.eq_dec (step first) bits) as [K|K]; [|lia]. rewrite K in *. lia.
        * rewrite SE. apply zero_bits_next; lia.
      + rewrite A. eexists. split; [reflexivity|]. apply tiles_cons; [exact F|exact T].
    - assert (SE : step first = N.size (last - first + 1) - 1) by (unfold step; lia).
      assert (P2 : 2 ^ N.size (last - first + 1) = 2 * 2 ^ step first).
      { rewrite SE. rewrite <- N.pow_succ_r'. f_equal. lia. }
      assert (SZ : N.size (last + 1 - (first + 2 ^ step first)) <= step first) by (apply size_le; lia).
      destruct (range_late fuel (first + 2 ^ step first)) as (l & A & T); try lia.
      + right. unfold late.
        replace (last - (first + 2 ^ step first) + 1) with (last + 1 - (first + 2 ^ step first)) by lia.
        eapply N.le_trans; [exact SZ|].
        apply zero_bits_max; [lia|exact S1|].
        apply mod_add_0; [apply N.pow_nonzero; lia|exact S2|apply N.mod_same, N.pow_nonzero; lia].
      + rewrite A. eexists. split; [reflexivity|]. apply tiles_cons; [exact F|exact T].
  Qed.

  Lemma tiles_le : forall first l, tiles first l -> first <= last + 1.
  Proof. intros first l T. induction T; lia. Qed.
  Lemma tiles_wf : forall first l, tiles first l -> Forall (fun n => p_bits n = bits /\ net_wf n) l.
  Proof.
    intros first l T. induction T as [|first l F T IH]; constructor; [|exact IH].
    split; [reflexivity|]. unfold net_wf, size_of. cbn [p_bits p_len p_base].
    pose proof (step_facts first F) as (S1 & S2 & S3).
    replace (bits - (bits - step first)) with (step first) by lia.
    split; [exact family|]. split; [lia|]. split; [exact S2|lia].
  Qed.
  Lemma tile_size : forall first, first <= last -> size_of (mkP bits first (bits - step first)) = 2 ^ step first.
  Proof. intros first F. unfold size_of. cbn. pose proof (step_facts first F). f_equal. lia. Qed.
  Lemma tiles_cover : forall first l, tiles first l ->
    forall v, (exists n, In n l /\ holds n v) <-> first <= v <= last.
  Proof.
    intros first l T. induction T as [|first l F T IH]; intro v.
    { split; [intros (n & [] & _)|lia]. }
    pose proof (tiles_le _ _ T) as TL. pose proof (pow_pos (step first)) as PP. split.
    - intros (n & [E|E] & H).
      + subst n. unfold holds in H. rewrite tile_size in H by exact F. cbn [p_base] in H. lia.
      + assert (exists n, In n l /\ holds n v) as X by (exists n; auto). apply IH in X. lia.
    - intro V. destruct (N.lt_ge_cases v (first + 2 ^ step first)) as [L|L].
      + eexists. split; [left; reflexivity|]. unfold holds. rewrite tile_size by exact F. cbn [p_base]. lia.
      + destruct (proj2 (IH v)) as (n & A & B); [lia|]. exists n. split; [right; exact A|exact B].
  Qed.
  Definition before (a b : pnet) : Prop := forall v w, holds a v -> holds b w -> v < w.
  Lemma tiles_sorted : forall first l, tiles first l -> StronglySorted before l.
  Proof.
    intros first l T. induction T as [|first l F T IH]; constructor; [exact IH|].
    apply Forall_forall. intros n E v w V W.
    assert (X : exists n, In n l /\ holds n w) by (exists n; auto). apply (tiles_cover _ _ T) in X.
    unfold holds in V. rewrite tile_size in V by exact F. cbn [p_base] in V. lia.
  Qed.
  (** aligned blocks contain each other or are disjoint *)
  Lemma aligned : forall a b i j, a mod 2 ^ i = 0 -> b mod 2 ^ j = 0 -> a < b -> b < a + 2 ^ i -> b + 2 ^ j <= a + 2 ^ i.
  Proof.
    intros a b i j A B L U. destruct (N.le_gt_cases i j) as [G|G].
    - exfalso. apply (mod_pow_le _ i) in B; [|exact G].
      apply N.mod_divides in A; [|apply N.pow_nonzero; lia]. destruct A as [x ->].
      apply N.mod_divides in B; [|apply N.pow_nonzero; lia]. destruct B as [y ->].
      apply N.mul_lt_mono_pos_l in L; [|apply pow_pos].
      replace (2 ^ i * x + 2 ^ i) with (2 ^ i * (x + 1)) in U by lia.
      apply N.mul_lt_mono_pos_l in U; [|apply pow_pos]. lia.
    - replace i with (j + (i - j)) in * by lia. apply (mod_pow_le _ j) in A as A'; [|lia].
      set (d := i - j) in *. rewrite !N.pow_add_r in *.
      apply N.mod_divides in A'; [|apply N.pow_nonzero; lia]. destruct A' as [x ->].
      apply N.mod_divides in B; [|apply N.pow_nonzero; lia]. destruct B as [y ->].
      replace (2 ^ j * x + 2 ^ j * 2 ^ d) with (2 ^ j * (x + 2 ^ d)) in * by lia.
      apply N.mul_lt_mono_pos_l in U; [|apply pow_pos].
      replace (2 ^ j * y + 2 ^ j) with (2 ^ j * (y + 1)) by lia. apply N.mul_le_mono_l. lia.
  Qed.
  (** every network in the range is in one of the networks *)
  Lemma tiles_largest : forall first l, tiles first l ->
    forall b, net_wf b -> p_bits b = bits -> (forall v, holds b v -> first <= v <= last) ->
    exists n, In n l /\ forall v, holds b v -> holds n v.
  Proof.
    intros first l T. induction T as [|first l F T IH]; intros b W B H.
    { assert (X : last + 1 <= p_base b <= last); [|lia]. apply H. unfold holds, size_of.
      pose proof (pow_pos (p_bits b - p_len b)). lia. }
    pose proof (pow_pos (p_bits b - p_len b)) as PB.
    assert (H1 : first <= p_base b <= last) by (apply H; unfold holds, size_of; lia).
    assert (H2 : p_base b + 2 ^ (p_bits b - p_len b) <= last + 1).
    { assert (X : first <= p_base b + 2 ^ (p_bits b - p_len b) - 1 <= last); [|lia].
      apply H. unfold holds, size_of. lia. }
    destruct W as (_ & W1 & W2 & W3). unfold size_of in W2.
    pose proof (step_facts first F) as (S1 & S2 & S3).
    destruct (N.eq_dec (p_base b) first) as [E|E].
    - eexists. split; [left; reflexivity|]. intros v V. unfold holds in *. rewrite tile_size by exact F. cbn [p_base].
      assert (X : p_bits b - p_len b <= step first) by (apply step_max; try lia; rewrite <- E; lia).
      apply (N.pow_le_mono_r 2) in X; [|lia]. unfold size_of in V. lia.
    - destruct (N.lt_ge_cases (p_base b) (first + 2 ^ step first)) as [L|L].
      + eexists. split; [left; reflexivity|]. intros v V. unfold holds in *. rewrite tile_size by exact F. cbn [p_base].
        pose proof (aligned first (p_base b) _ _ S2 W2). unfold size_of in V. lia.
      + destruct (IH b) as (n & X & Y); [unfold net_wf, size_of; rewrite B in *; tauto|exact B| |exists n; split; [right; exact X|exact Y]].
        intros v V. pose proof (H v V). unfold holds in V. lia.
  Qed.
End Range.
