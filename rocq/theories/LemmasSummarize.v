(** loc_network_list_summarize. *)
From Coq Require Import NArith ZArith List Bool Arith Lia ZifyBool ZifyNat ZifyN Sorting.Sorted.
From Verif Require Import Base LemmasBase ModelAddress LemmasAddress ModelCountryCode ModelNetwork SpecNetwork
  LemmasNetwork LemmasSpecNetwork LemmasSpecAddress ModelNetworkList LemmasNetworkList LemmasExclude.
Import ListNotations.
Open Scope N_scope.

Definition width (v : N) : nat := if mappedb v then 32%nat else 128%nat.

(** the smallest block that contains both, of prefix at least 1 *)
Record spans (a b : N) (n : network) : Prop := {
  sp_wf : net_wf n;
  sp_a : inb n a;
  sp_b : inb n b;
  sp_prefix : (128 - width a < n_prefix n)%nat;
  sp_min : forall p, (n_prefix n < p <= 128)%nat -> a / blk p <> b / blk p;
  sp_plain : n_cc n = (0, 0) /\ n_asn n = 0 /\ n_flags n = 0;
  sp_family : mappedb (lo n) = mappedb a
}.

Lemma common_spec a b : wf a -> wf b -> mappedb (val a) = mappedb (val b) ->
  exists c, addr_common_bits a b = Some c /\ (c <= width (val a))%nat /\
    (forall p, (p <= 128)%nat -> val a / blk p = val b / blk p <-> (p <= 128 - width (val a) + c)%nat).
Proof.
  intros Ha Hb M. destruct (common_bits_num a b (width (val a)) Ha Hb) as (c & E & C1 & C2 & C3).
  { rewrite !is_ipv4_mapped. unfold width, num. fold (val a) (val b). rewrite <- M.
    destruct (mappedb (val a)); [left|right]; intuition congruence. }
  assert (Wl : (width (val a) <= 128)%nat) by (unfold width; destruct (mappedb (val a)); lia).
  pose proof (val_bound a Ha). pose proof (val_bound b Hb).
  exists c. split; auto. split; auto.
  assert (P0 : (128 - width (val a) + c <= 128)%nat) by (clear -C1 Wl; lia).
  rewrite agree_iff in C2 by auto.
  intros p Hp. split.
  - intros Q. destruct (Nat.le_gt_cases p (128 - width (val a) + c)) as [|G]; auto. exfalso.
    assert (Cl : (c < width (val a))%nat) by (clear -C1 Wl G Hp; lia).
    apply (C3 Cl). apply agree_iff; auto; [clear -Cl Wl; lia|].
    apply (div_blk_mono _ p); auto. clear -G; lia.
  - intros Q. apply (div_blk_mono _ (128 - width (val a) + c)); auto.
Qed.

Lemma all_ones_last a : wf a -> addr_all_ones a = true <-> is_last (val a).
Proof. intros H. apply addr_all_ones_iff, H. Qed.

(** when at least one bit is common, one network is pushed and the loop ends *)
Lemma summarize_one a b L l fuel : wf a -> wf b -> mappedb (val a) = mappedb (val b) -> val a <= val b ->
  (exists c, addr_common_bits a b = Some c /\ (0 < c)%nat) -> repr L l -> sorted l ->
  exists L' n, summarize_loop L a b (S fuel) = Ok L' /\ repr L' (ins n l) /\ spans (val a) (val b) n.
Proof.
  intros Ha Hb M Le (c & E & C0) R So. destruct (common_spec a b Ha Hb M) as (c' & E' & C1 & C2).
  rewrite E in E'. injection E' as <-. cbn [summarize_loop].
  assert (Cm : (addr_cmp a b <=? 0)%Z = true).
  { rewrite addr_cmp_spec by auto. destruct (N.compare_spec (val a) (val b)); cbn; lia. }
  rewrite Cm, E. replace (c =? 0)%nat with false by lia.
  pose proof (network_new_spec a (N.of_nat c) Ha) as Nn.
  replace (N.of_nat c <=? low_bits (val a)) with true in Nn
    by (symmetry; apply N.leb_le; unfold width, low_bits in *; destruct (mappedb (val a)); lia).
  destruct Nn as (n & En & Wn & Ln & Pn & Mn & Cn & An & Fn). rewrite En. cbn [bind].
  destruct (list_push_spec L l n R So Wn) as (L' & Ep & R'). rewrite Ep. cbn [bind].
  assert (P : n_prefix n = (128 - width (val a) + c)%nat).
  { rewrite Pn. unfold raw_prefix, width. destruct (mappedb (val a)); clear; lia. }
  assert (I1 : inb n (val a)).
  { apply inb_iff; auto. rewrite Ln, P. rewrite <- Pn, P. unfold first_of. now rewrite N.div_mul by (pose proof (blk_pos (128 - width (val a) + c)); lia). }
  assert (I2 : inb n (val b)).
  { apply inb_iff; auto. apply inb_iff in I1; auto. rewrite <- I1, P. symmetry. apply C2; [rewrite <- P; apply Wn|lia]. }
  assert (Sp : spans (val a) (val b) n).
  { constructor; auto; [rewrite P; clear -C0; lia|]. intros p Hp Q. apply C2 in Q; [|clear -Hp; lia]. clear -P Hp Q. lia. }
  exists L', n. split; [|auto].
  destruct (addr_all_ones (n_last n)) eqn:A; auto.
  pose proof (w_last n Wn) as Wl. destruct (addr_increment_wf_val (n_last n) Wl) as (Wi & _ & Vi).
  assert (V : val (addr_increment (n_last n)) = hi n + 1).
  { apply Vi. intros X. apply all_ones_last in X; auto. congruence. }
  assert (Cm2 : (addr_cmp (addr_increment (n_last n)) b <=? 0)%Z = false).
  { rewrite addr_cmp_spec by auto. rewrite V. unfold inb in I2.
    destruct (N.compare_spec (hi n + 1) (val b)); cbn; lia. }
  destruct fuel; cbn [summarize_loop]; rewrite Cm2; reflexivity.
Qed.

(** no common bit: the two ends lie in different halves of the address space *)
Lemma summarize_spec a b L l fuel : wf a -> wf b -> addr_family a = addr_family b -> val a < val b ->
  repr L l -> sorted l ->
  exists L' news, list_summarize a b L (S (S fuel)) = Ok L' /\ repr L' (ins_all l news) /\
   (forall x, In x news -> net_wf x /\ mappedb (lo x) = mappedb (val a) /\
                           n_cc x = (0, 0) /\ n_asn x = 0 /\ n_flags x = 0) /\
   ((exists n, news = [n] /\ spans (val a) (val b) n) \/
    (exists n1 n2, news = [n1; n2] /\
       n_prefix n1 = (129 - width (val a))%nat /\ inb n1 (val a) /\ hi n1 + 1 <= val b /\
       lo n1 = first_of (val a) (128 - width (val a)) /\
       spans (hi n1 + 1) (val b) n2)).
Proof.
  intros Ha Hb F Lt R So. unfold list_summarize.
  assert (M : mappedb (val a) = mappedb (val b)).
  { rewrite !addr_family_val in F by auto. destruct (mappedb (val a)), (mappedb (val b)); congruence. }
  replace (family_eqb (addr_family a) (addr_family b)) with true by (rewrite F; now destruct (addr_family b)).
  cbn [negb].
  assert (Cm : (0 <=? addr_cmp a b)%Z = false).
  { rewrite addr_cmp_spec by auto. destruct (N.compare_spec (val a) (val b)); cbn; lia. }
  rewrite Cm. destruct (common_spec a b Ha Hb M) as (c & E & C1 & C2).
  destruct (Nat.eq_dec c 0) as [->|Cn].
  2:{ destruct (summarize_one a b L l (S fuel) Ha Hb M) as (L' & n & E1 & R1 & Sp); auto; [lia|exists c; split; auto; lia|].
      exists L', [n]. split; auto. split; auto. split; [|left; exists n; auto].
      intros x [<-|[]]. destruct Sp. auto. }
  set (W := width (val a)) in *.
  assert (W2 : (W = 32 \/ W = 128)%nat) by (subst W; unfold width; destruct (mappedb (val a)); auto).
  cbn [summarize_loop].
  assert (Cm2 : (addr_cmp a b <=? 0)%Z = true).
  { rewrite addr_cmp_spec by auto. destruct (N.compare_spec (val a) (val b)); cbn; lia. }
  rewrite Cm2, E. cbn [Nat.eqb]. change (N.of_nat 1) with 1.
  pose proof (network_new_spec a 1 Ha) as Nn.
  replace (1 <=? low_bits (val a)) with true in Nn
    by (symmetry; apply N.leb_le; unfold low_bits; destruct (mappedb (val a)); lia).
  destruct Nn as (n & En & Wn & Ln & Pn & Mn & Cn & An & Fn). rewrite En. cbn [bind].
  destruct (list_push_spec L l n R So Wn) as (L1 & Ep & R1). rewrite Ep. cbn [bind].
  assert (P : n_prefix n = (129 - W)%nat).
  { rewrite Pn. subst W. unfold raw_prefix, width. destruct (mappedb (val a)); clear; lia. }
  set (q0 := (128 - W)%nat) in *. assert (P' : n_prefix n = S q0) by (clear -P W2; subst q0; lia).
  assert (Q0 : (q0 < 128)%nat) by (clear -W2; subst q0; lia).
  (* a and b agree on q0 bits, but not on one more *)
  assert (G0 : val a / blk q0 = val b / blk q0) by (apply C2; [lia|clear; lia]).
  assert (G1 : val a / blk (S q0) <> val b / blk (S q0)) by (intros X; apply C2 in X; [clear -X; lia|lia]).
  pose proof (blk_S q0 Q0) as BS. pose proof (blk_pos (S q0)) as BP.
  set (B := blk (S q0)) in *. rewrite BS in G0.
  assert (Da : val a = B * (val a / B) + val a mod B) by (apply N.div_mod; lia).
  assert (Db : val b = B * (val b / B) + val b mod B) by (apply N.div_mod; lia).
  pose proof (N.mod_lt (val a) B ltac:(lia)) as Ra. pose proof (N.mod_lt (val b) B ltac:(lia)) as Rb.
  rewrite (N.mul_comm 2 B), <- !N.div_div in G0 by lia.
  set (qa := val a / B) in *. set (qb := val b / B) in *.
  assert (Hq : qa < qb).
  {
    assert (qa <= qb) by (subst qa qb; apply N.div_le_mono; lia). clear -H G1. lia. }
  assert (Hq2 : qa = 2 * (qa / 2) /\ qb = qa + 1).
  { pose proof (N.div_mod qa 2 ltac:(lia)) as X1. pose proof (N.div_mod qb 2 ltac:(lia)) as X2.
    pose proof (N.mod_lt qa 2 ltac:(lia)). pose proof (N.mod_lt qb 2 ltac:(lia)). rewrite G0 in *. clear -X1 X2 H H0 Hq. lia. }
  destruct Hq2 as [He Hq2].
  assert (Ln' : lo n = qa * B).
  { rewrite Ln, <- Pn, P'. unfold first_of. fold B. reflexivity. }
  assert (Hn : hi n = qa * B + (B - 1)) by (rewrite (hi_lo n Wn), P'; fold B; now rewrite Ln').
  assert (Hn1 : hi n + 1 = qb * B).
  { rewrite Hn, Hq2. rewrite N.mul_add_distr_r, N.mul_1_l. clear -BP. lia. }
  assert (Ia : inb n (val a)).
  { unfold inb. rewrite Ln', Hn. rewrite (N.mul_comm B qa) in Da. clear -Da Ra. lia. }
  assert (Hb1 : hi n + 1 <= val b).
  { rewrite Hn1. rewrite (N.mul_comm B qb) in Db. clear -Db. lia. }
  pose proof (w_last n Wn) as Wl. destruct (addr_increment_wf_val (n_last n) Wl) as (Wi & _ & Vi).
  assert (NL : ~ is_last (val (n_last n))).
  { change (val (n_last n)) with (hi n). pose proof (val_bound b Hb). rewrite is_last_iff by (clear -Hb1 H; lia).
    intros [X|X]; [|clear -X H Hb1; lia].
    destruct (mappedb (val b)) eqn:Mb; [apply mappedb_range in Mb; clear -X Mb Hb1; lia|].
    assert (Q1 : q0 = 0%nat) by (subst q0 W; unfold width; rewrite M; reflexivity).
    subst B. rewrite Q1 in Hn1. rewrite X in Hn1. clear -Hn1 Hq2. change (blk 1) with (2 ^ 127) in Hn1.
    destruct (N.eq_dec qb 0) as [Z|Z]; [lia|]. assert (2 ^ 127 <= qb * 2 ^ 127) by lia. lia. }
  assert (A1 : addr_all_ones (n_last n) = false).
  { destruct (addr_all_ones (n_last n)) eqn:X; auto. apply all_ones_last in X; auto. contradiction. }
  rewrite A1. assert (V : val (addr_increment (n_last n)) = hi n + 1) by (apply Vi; auto).
  set (s := addr_increment (n_last n)) in *.
  assert (D2 : val s / blk (S q0) = val b / blk (S q0)).
  { rewrite V, Hn1. fold B. rewrite N.div_mul by (clear -BP; lia). reflexivity. }
  assert (Ms : mappedb (val s) = mappedb (val b)).
  { destruct W2 as [W2|W2].
    - assert (q0 = 96)%nat by (clear -W2; subst q0; lia).
      rewrite <- (mapped_first (val s) (S q0)), <- (mapped_first (val b) (S q0)) by (clear -H; lia).
      unfold first_of. now rewrite D2.
    - assert (Q1 : q0 = 0%nat) by (clear -W2; subst q0; lia).
      rewrite V, Hn1. subst B. rewrite Q1. change (blk 1) with (2 ^ 127).
      assert (Nm : mappedb (val b) = false).
      { rewrite <- M. subst W. unfold width in W2. destruct (mappedb (val a)); [discriminate|auto]. }
      rewrite Nm. destruct (mappedb (qb * 2 ^ 127)) eqn:Mq; auto. apply mappedb_range in Mq.
      destruct (N.eq_dec qb 0) as [Z|Z]; [clear -Z Mq; lia|].
      assert (2 ^ 127 <= qb * 2 ^ 127) by (clear -Z; lia). clear -H Mq. lia. }
  assert (Ws : width (val s) = W) by (subst W; unfold width; now rewrite Ms, M).
  destruct (summarize_one s b L1 (ins n l) fuel) as (L2 & n2 & E2 & R2 & Sp); auto.
  { now rewrite V. }
  { destruct (common_spec s b Wi Hb Ms) as (c2 & Ec2 & _ & Cc2). exists c2. split; auto.
    rewrite Ws in Cc2. fold q0 in Cc2. apply Cc2 in D2; [clear -D2; lia|clear -Q0; lia]. }
  { now apply sorted_ins. }
  exists L2, [n; n2]. split; [exact E2|]. split; [exact R2|]. split.
  - intros x [<-|[<-|[]]]; [auto|]. pose proof (sp_plain _ _ _ Sp) as (X1 & X2 & X3).
    split; [apply Sp|]. split; [|auto]. rewrite (sp_family _ _ _ Sp). congruence.
  - right. exists n, n2. split; auto. split; auto. split; auto. split; auto. rewrite <- V at 1. split; auto.
    rewrite Ln'. unfold first_of. fold q0. rewrite BS. rewrite (N.mul_comm 2 B), <- N.div_div by (clear -BP; lia).
    fold qa. rewrite He at 1. clear. lia.
Qed.

Lemma spans_cover a b n v : spans a b n -> a <= v <= b -> inb n v.
Proof. intros [W I1 I2 _ _ _ _] H. unfold inb in *. lia. Qed.

(** the block is the range when the range is a block *)
Lemma spans_block a b n m : net_wf m -> lo m = a -> hi m = b -> spans a b n -> lo n = a /\ hi n = b.
Proof.
  intros Wm La Hb [W I1 I2 _ Mn _ _].
  assert (P : (n_prefix m <= n_prefix n)%nat).
  { destruct (Nat.le_gt_cases (n_prefix m) (n_prefix n)) as [|G]; auto. exfalso.
    apply (Mn (n_prefix m)); [pose proof (w_prefix m Wm); lia|].
    assert (Im : inb m b) by (rewrite <- Hb; now apply inb_hi). apply inb_iff in Im; auto. rewrite <- La. congruence. }
  destruct (nest_bounds m n a Wm W) as [N1 N2]; auto.
  { rewrite <- La. now apply inb_lo. }
  unfold inb in *. lia.
Qed.

Lemma summarize_covers a b L l fuel : wf a -> wf b -> addr_family a = addr_family b -> val a < val b ->
  repr L l -> sorted l ->
  exists L' l', list_summarize a b L (S (S fuel)) = Ok L' /\ repr L' l' /\ sorted l' /\
    (forall v, val a <= v <= val b -> cover l' v) /\ (forall v, cover l v -> cover l' v) /\
    (forall x, In x l -> In x l') /\ (length l' <= length l + 2)%nat.
Proof.
  intros Ha Hb F Lt R So. destruct (summarize_spec a b L l fuel Ha Hb F Lt R So) as (L' & news & E & R' & W & X).
  assert (Fw : Forall net_wf news) by (apply Forall_forall; intros x Hx; now apply W).
  exists L', (ins_all l news). split; auto. split; auto. split; [now apply sorted_ins_all|].
  assert (Ln : forall n k, (length (ins n k) <= length k + 1)%nat).
  { intros n k. induction k as [|x k IH]; cbn [ins]; [cbn; lia|]. destruct (K n <? K x); [cbn [length]; lia|].
    destruct (K n =? K x); cbn [length]; lia. }
  split; [|split; [|split]].
  - intros v Hv. apply cover_ins_all; auto. left.
    destruct X as [(n & -> & Sp)|(n1 & n2 & -> & P & I & Hh & _ & Sp)].
    + exists n. split; cbn; auto. eapply spans_cover; eauto.
    + destruct (N.le_gt_cases v (hi n1)).
      * exists n1. split; cbn; auto. unfold inb in *. lia.
      * exists n2. split; cbn; auto. eapply spans_cover; eauto. lia.
  - intros v C. apply cover_ins_all; auto.
  - intros x Hx. now apply ins_all_old.
  - destruct X as [(n & -> & Sp)|(n1 & n2 & -> & _)]; cbn [ins_all fold_left].
    + specialize (Ln n l). lia.
    + pose proof (Ln n1 l). pose proof (Ln n2 (ins n1 l)). lia.
Qed.

(** the two outcomes of summarize_spec *)
Definition summary (a b : N) (news : list network) : Prop :=
  (exists n, news = [n] /\ spans a b n) \/
  (exists n1 n2, news = [n1; n2] /\
     n_prefix n1 = (129 - width a)%nat /\ inb n1 a /\ hi n1 + 1 <= b /\
     lo n1 = first_of a (128 - width a) /\
     spans (hi n1 + 1) b n2).

Lemma summary_exact m news : net_wf m -> lo m < hi m -> mappedb (hi m) = mappedb (lo m) -> (forall x, In x news -> net_wf x) ->
  summary (lo m) (hi m) news -> forall v, cover news v <-> inb m v.
Proof.
  intros Wm Lt M W X v.
  destruct X as [(n & -> & Sp)|(n1 & n2 & -> & P & I & Hh & L1 & Sp)].
  - destruct (spans_block _ _ n m Wm eq_refl eq_refl Sp) as [X1 X2]. split.
    + intros (x & [<-|[]] & Ix). unfold inb in *. lia.
    + intros Iv. exists n. split; cbn; auto. unfold inb in *. lia.
  - assert (W1 : net_wf n1) by (apply W; cbn; auto).
    set (w := width (lo m)) in *. assert (W2 : (w = 32 \/ w = 128)%nat) by (subst w; unfold width; destruct (mappedb (lo m)); auto).
    (* the range is the whole family *)
    assert (Pm : n_prefix m = (128 - w)%nat).
    { destruct (Nat.lt_trichotomy (n_prefix m) (128 - w)) as [G|[G|G]]; auto; exfalso.
      - destruct W2 as [W2|W2]; [|clear -G W2; lia].
        assert (Mp : mappedb (lo m) = true) by (subst w; unfold width in W2; destruct (mappedb (lo m)); auto; discriminate).
        pose proof (w_prefix4 m Wm Mp). clear -H G W2. lia.
      - (* m inside n1 *)
        destruct (nest_bounds n1 m (lo m)) as [Y1 Y2]; auto; [now apply inb_lo|rewrite P; clear -G; lia|].
        clear -Y2 Hh. lia. }
    assert (LH : lo n1 = lo m).
    { rewrite L1, <- Pm. apply (w_lo m Wm). }
    assert (Hm : hi m = lo m + (blk (128 - w) - 1)) by (rewrite <- Pm; now apply hi_lo).
    assert (H1 : hi n1 = lo m + (blk (S (128 - w)) - 1)).
    { rewrite (hi_lo n1 W1), LH, P. do 3 f_equal. clear -W2. lia. }
    pose proof (blk_S (128 - w) ltac:(clear -W2; lia)) as BS. pose proof (blk_pos (S (128 - w))) as BP.
    (* the second half is a block *)
    assert (S2 : lo n2 = hi n1 + 1 /\ hi n2 = hi m).
    { destruct Sp as [Wn2 J1 J2 J3 J4 _ _].
      assert (Wi : width (hi n1 + 1) = w).
      { subst w. unfold width. destruct (mappedb (lo m)) eqn:Mm.
        - assert (Iv : inb m (hi n1 + 1)) by (unfold inb; rewrite Hm, H1; clear -BS BP; lia).
          now rewrite (split_mapped_4 m _ Wm Mm Iv).
        - assert (Pz : n_prefix m = 0%nat) by (rewrite Pm; unfold width; rewrite Mm; reflexivity).
          assert (L0 : lo m = 0).
          { pose proof (lo_div m Wm). rewrite Pz in H. pose proof (lo_bound m Wm). change (blk 0) with (2 ^ 128) in H.
            rewrite N.div_small in H by auto. lia. }
          rewrite H1, L0. reflexivity. }
      rewrite Wi in J3.
      assert (Pn : n_prefix n2 = S (128 - w)).
      { destruct (Nat.le_gt_cases (n_prefix n2) (S (128 - w))) as [G|G]; [clear -G J3; lia|]. exfalso.
        pose proof (w_prefix n2 Wn2) as PP.
        assert (blk (n_prefix n2) * 2 <= blk (S (128 - w))).
        { rewrite (blk_le_mul (S (128 - w)) (n_prefix n2)) by (auto; clear -G; lia).
          replace (n_prefix n2 - S (128 - w))%nat with (S (n_prefix n2 - S (128 - w) - 1)) by (clear -G; lia).
          rewrite Nat2N.inj_succ, N.pow_succ_r'.
          assert (1 <= 2 ^ N.of_nat (n_prefix n2 - S (128 - w) - 1)) by (pose proof (N.pow_nonzero 2 (N.of_nat (n_prefix n2 - S (128 - w) - 1))); lia).
          set (y := 2 ^ N.of_nat (n_prefix n2 - S (128 - w) - 1)) in *. set (z := blk (n_prefix n2)).
          replace (2 * y * z) with (z * 2 * y) by lia. rewrite <- (N.mul_1_r (z * 2)) at 1. apply N.mul_le_mono_l. auto. }
        pose proof (hi_lo n2 Wn2). pose proof (blk_pos (n_prefix n2)). unfold inb in J1, J2. clear -H H0 H1 H2 J1 J2 Hm BS BP. lia. }
      pose proof (hi_lo n2 Wn2) as H2. rewrite Pn in H2.
      assert (lo n2 = hi n1 + 1); [|clear -H2 H Hm H1 BS BP; lia].
      unfold inb in J1, J2. pose proof (lo_le_hi m Wm). clear -J1 J2 H2 H1 Hm BS BP. lia. }
    destruct S2 as [S1 S2]. split.
    + intros (x & [<-|[<-|[]]] & Ix); unfold inb in *; clear -Ix S1 S2 LH Hh I; lia.
    + intros Iv. destruct (N.le_gt_cases v (hi n1)).
      * exists n1. split; cbn; auto. unfold inb in *. lia.
      * exists n2. split; cbn; auto. unfold inb in *. lia.
Qed.

Lemma summarize_exact m fuel : net_wf m -> lo m < hi m ->
  mappedb (hi m) = mappedb (lo m) ->
  exists L' l', list_summarize (n_first m) (n_last m) list_new (S (S fuel)) = Ok L' /\ repr L' l' /\ sorted l' /\
    (forall v, cover l' v <-> inb m v).
Proof.
  intros Wm Lt M.
  assert (F : addr_family (n_first m) = addr_family (n_last m)).
  { rewrite !addr_family_val by apply Wm. fold (lo m) (hi m). now rewrite M. }
  destruct (summarize_spec (n_first m) (n_last m) list_new [] fuel) as (L' & news & E & R' & W & X); auto.
  { apply Wm. } { apply Wm. } { apply list_new_repr. } { apply sorted_nil. }
  fold (lo m) (hi m) in X, W.
  assert (Fw : Forall net_wf news) by (apply Forall_forall; intros x Hx; now apply W).
  exists L', (ins_all [] news). split; auto. split; auto. split; [apply sorted_ins_all; auto; apply sorted_nil|].
  intros v. rewrite cover_ins_all by (auto; apply sorted_nil).
  rewrite (summary_exact m news Wm Lt M (fun x I => proj1 (W x I)) X v). split; [|auto]. intros [H|(x & [] & _)]. exact H.
Qed.

Lemma summarize_refuses a b L fuel : wf a -> wf b -> (addr_family a <> addr_family b \/ val b <= val a) ->
  list_summarize a b L fuel = Err 1.
Proof.
  intros Ha Hb H. unfold list_summarize. destruct (family_eqb (addr_family a) (addr_family b)) eqn:F; cbn [negb]; auto.
  destruct H as [H|H].
  - exfalso. apply H. destruct (addr_family a), (addr_family b); auto; discriminate.
  - rewrite addr_cmp_spec by auto. destruct (N.compare_spec (val a) (val b)); cbn; auto. lia.
Qed.
