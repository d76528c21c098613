(** The statements of PropsNetwork. *)
From Coq Require Import NArith ZArith List Bool Arith Lia ZifyBool ZifyNat ZifyN.
From Verif Require Import Base LemmasBase ModelAddress LemmasAddress ModelCountryCode ModelNetwork
  LemmasNetwork SpecNetwork LemmasSpecNetwork LemmasSpecAddress.
Import ListNotations.
Open Scope N_scope.

Lemma network_cmp_key n m : valid_network n -> valid_network m ->
  ((network_cmp n m < 0)%Z <->
     num (n_first n) < num (n_first m) \/
     num (n_first n) = num (n_first m) /\ (n_prefix n < n_prefix m)%nat) /\
  ((network_cmp n m = 0)%Z <->
     n_prefix n = n_prefix m /\ forall v, member n v <-> member m v) /\
  (network_cmp m n = - network_cmp n m)%Z.
Proof.
  intros Vn Vm. apply valid_net_wf in Vn, Vm.
  assert (Ko : forall x y, net_wf x -> net_wf y ->
    K x < K y <-> lo x < lo y \/ lo x = lo y /\ (n_prefix x < n_prefix y)%nat).
  { intros x y Hx Hy. pose proof (w_prefix x Hx). pose proof (w_prefix y Hy). unfold K. lia. }
  rewrite !network_cmp_spec by auto.
  split; [|split].
  - change (num (n_first n)) with (lo n). change (num (n_first m)) with (lo m).
    rewrite <- Ko by auto. destruct (N.compare_spec (K n) (K m)); cbn; lia.
  - transitivity (K n = K m).
    { destruct (N.compare_spec (K n) (K m)); cbn; lia. }
    rewrite K_eq by auto. split.
    + intros [E P]. split; auto. intros v. rewrite !member_inb. unfold inb.
      rewrite !hi_lo by auto. rewrite E, P. tauto.
    + intros [P M]. split; auto. pose proof (inb_lo n Vn) as I1. pose proof (inb_lo m Vm) as I2.
      apply M in I1. apply M in I2. destruct I1, I2. change (num (n_first m)) with (lo m) in *.
      change (num (n_first n)) with (lo n) in *. lia.
  - rewrite (N.compare_antisym (K n) (K m)). now destruct (K n ?= K m).
Qed.

Lemma network_cmp_trans n m k : valid_network n -> valid_network m -> valid_network k ->
  (network_cmp n m <= 0)%Z -> (network_cmp m k <= 0)%Z ->
  (network_cmp n k <= 0)%Z /\ ((network_cmp n k = 0)%Z -> (network_cmp n m = 0)%Z /\ (network_cmp m k = 0)%Z).
Proof.
  intros Vn Vm Vk. apply valid_net_wf in Vn, Vm, Vk. rewrite !network_cmp_spec by auto.
  destruct (N.compare_spec (K n) (K m)), (N.compare_spec (K m) (K k)), (N.compare_spec (K n) (K k)); cbn; lia.
Qed.

Lemma network_new_block a prefix W : is_addr a ->
  (is_ipv4 (num a) /\ W = 32%nat \/ ~ is_ipv4 (num a) /\ W = 128%nat) ->
  (prefix <= N.of_nat W -> exists n, network_new a prefix = Ok n /\ valid_network n /\
     (forall v, v < 2 ^ 128 -> (member n v <-> agree (128 - W + N.to_nat prefix) (num a) v)) /\
     member n (num a) /\ member n (num (n_first n)) /\ member n (num (n_last n)) /\
     network_prefix n = prefix /\ attrs n = ([], 0, 0)) /\
  (N.of_nat W < prefix -> network_new a prefix = Err 1).
Proof.
  intros Ha F. rewrite is_ipv4_mapped in F. change (num a) with (val a) in *.
  assert (EW : low_bits (val a) = N.of_nat W).
  { unfold low_bits. destruct (mappedb (val a)); intuition; try congruence; lia. }
  pose proof (network_new_spec a prefix Ha) as S. rewrite EW in S.
  split; intros Hp.
  - replace (prefix <=? N.of_nat W) with true in S by lia.
    destruct S as (n & E & Wn & L & P & M & C & A & Fl).
    assert (RP : raw_prefix (val a) prefix = (128 - W + N.to_nat prefix)%nat).
    { unfold raw_prefix. destruct (mappedb (val a)); intuition; try congruence; lia. }
    assert (RW : (W <= 128)%nat) by intuition lia.
    assert (I : forall v, v < 2 ^ 128 -> (inb n v <-> agree (128 - W + N.to_nat prefix) (val a) v)).
    { intros v Hv. rewrite inb_iff by auto. rewrite P, RP, L, RP.
      rewrite agree_iff by (auto using val_bound; lia).
      unfold first_of. rewrite N.div_mul by (pose proof (blk_pos (128 - W + N.to_nat prefix)); lia). lia. }
    exists n. split; auto. split; [now apply valid_net_wf|]. split; auto.
    split; [apply I; auto using val_bound; intros i _ _; auto|].
    split; [now apply inb_lo|]. split; [now apply inb_hi|].
    split.
    + rewrite network_prefix_val by auto. rewrite M, P. unfold raw_prefix. destruct (mappedb (val a)); lia.
    + unfold attrs, get_country_code. now rewrite C, A, Fl.
  - now replace (prefix <=? N.of_nat W) with false in S by lia.
Qed.

Lemma matches_members n a : valid_network n -> is_addr a ->
  (network_matches_address n a = true <-> member n (num a)) /\
  (network_matches_address n a = true <-> agree (n_prefix n) (num (n_first n)) (num a)).
Proof.
  intros Vn Ha. pose proof (vn_agree n Vn (num a) (val_bound a Ha)) as A.
  apply valid_net_wf in Vn. pose proof (matches_iff n a Vn Ha) as M.
  split; [exact M|]. rewrite M. exact A.
Qed.

Lemma is_subnet_members n m : valid_network n -> valid_network m ->
  is_subnet n m = true <-> (forall v, member m v -> member n v).
Proof. intros Vn Vm. apply valid_net_wf in Vn, Vm. now apply is_subnet_incl. Qed.

Lemma overlaps_members n m : valid_network n -> valid_network m ->
  (overlaps n m = true <-> exists v, member n v /\ member m v) /\
  overlaps n m = overlaps m n /\
  (overlaps n m = true <->
    (forall v, member m v -> member n v) \/ (forall v, member n v -> member m v)).
Proof.
  intros Vn Vm. apply valid_net_wf in Vn, Vm. split; [now apply overlaps_iff|]. split.
  - rewrite (nest_or_disjoint n m), (nest_or_disjoint m n) by auto. apply orb_comm.
  - rewrite nest_or_disjoint, orb_true_iff by auto. now rewrite !is_subnet_incl by auto.
Qed.

Lemma subnets_members n : valid_network n -> num (n_first n) <> num (n_last n) ->
  ~ (num (n_first n) = 0 /\ n_prefix n = 79%nat) ->
  ~ (num (n_first n) = 0xfffe00000000 /\ n_prefix n = 95%nat) ->
  exists s1 s2, subnets n = Ok (s1, s2) /\ splits n s1 s2.
Proof.
  intros Vn Hn B1 B2. apply valid_net_wf in Vn as W.
  assert (P : (n_prefix n < 128)%nat).
  { pose proof (w_prefix n W). destruct (Nat.eq_dec (n_prefix n) 128) as [E|E]; [|lia].
    exfalso. apply Hn. pose proof (hi_lo n W) as HL. rewrite E in HL. unfold blk in HL.
    change (num (n_first n)) with (lo n). change (num (n_last n)) with (hi n). cbn in HL. lia. }
  destruct (subnets_spec n W P) as (s1 & s2 & E & W1 & W2 & P1 & P2 & L1 & L2 & F1 & F2 & (A1 & G1 & C1) & (A2 & G2 & C2)).
  { intros [[X Y]|[X Y]]; [apply B1|apply B2]; split; auto. }
  exists s1, s2. split; auto. unfold splits.
  pose proof (blk_S (n_prefix n) P) as BS. pose proof (blk_pos (S (n_prefix n))).
  pose proof (hi_lo s1 W1). pose proof (hi_lo s2 W2). pose proof (hi_lo n W).
  rewrite P1 in *. rewrite P2 in *.
  split; [now apply valid_net_wf|]. split; [now apply valid_net_wf|].
  split; auto. split; auto.
  unfold member. change (num (n_first ?x)) with (lo x). change (num (n_last ?x)) with (hi x).
  split; [intros v [X Y]; unfold lo, hi, val, num in *; lia|].
  split; [intros v; unfold lo, hi, val, num in *; lia|].
  split; [unfold lo, hi, val, num in *; lia|].
  split; auto. split; auto. unfold attrs, get_country_code. split; congruence.
Qed.

Lemma subnets_single n : valid_network n -> num (n_first n) = num (n_last n) -> subnets n = Err 1.
Proof.
  intros Vn E. apply valid_net_wf in Vn as W. apply subnets_host; auto.
  pose proof (w_prefix n W). destruct (Nat.eq_dec (n_prefix n) 128) as [|Q]; auto. exfalso.
  pose proof (hi_lo n W) as H1. change (num (n_first n)) with (lo n) in E. change (num (n_last n)) with (hi n) in E.
  rewrite (blk_S (n_prefix n)) in H1 by lia. pose proof (blk_pos (S (n_prefix n))). lia.
Qed.

Lemma subnets_fails n : valid_network n ->
  (num (n_first n) = 0 /\ n_prefix n = 79%nat) \/ (num (n_first n) = 0xfffe00000000 /\ n_prefix n = 95%nat) ->
  subnets n = Err 1.
Proof. intros Vn H. apply subnets_bad; [now apply valid_net_wf|]. exact H. Qed.

Lemma halves_two n1 n2 : valid_network n1 -> valid_network n2 ->
  halves n1 n2 -> forall m, merged n1 m -> two_halves n1 n2 /\ union_of m n1 n2.
Proof.
  intros V1 V2 [HF HP HZ HZ4 HL HN HA] m (Wm & Pm & Lm & Fm & Am).
  apply valid_net_wf in V1 as W1. apply valid_net_wf in V2 as W2.
  pose proof (w_prefix n1 W1).
  pose proof (hi_lo n1 W1) as H1. pose proof (hi_lo n2 W2) as H2. pose proof (hi_lo m Wm) as H3.
  assert (BS : blk (n_prefix m) = 2 * blk (n_prefix n1)) by (rewrite <- Pm; apply blk_S; lia).
  pose proof (blk_pos (n_prefix n1)). rewrite <- HP in H2.
  split; [|split; [|split; [|split; [|split]]]]; auto.
  - split; auto. split; auto. exists m. split; [now apply valid_net_wf|]. split; auto. split; auto.
    change (num (n_first ?x)) with (lo x). change (num (n_last ?x)) with (hi x).
    unfold lo, hi, val, num in *. lia.
  - now apply valid_net_wf.
  - intros v. unfold member. unfold lo, hi, val, num in *. lia.
Qed.

Lemma two_halves_halves n1 n2 : valid_network n1 -> valid_network n2 ->
  two_halves n1 n2 -> same_attributes n1 n2 -> halves n1 n2.
Proof.
  intros V1 V2 (HF & HP & m & Vm & Fm & Pm & Lm & Hm & Hn) HA.
  apply valid_net_wf in V1 as W1. apply valid_net_wf in V2 as W2. apply valid_net_wf in Vm as Wm.
  assert (Lm' : lo m = lo n1) by exact Lm.
  pose proof (w_prefix n1 W1). pose proof (hi_lo n1 W1) as H1.
  constructor; auto.
  - lia.
  - intros M. rewrite <- Lm' in M. apply (w_prefix4 m Wm) in M. lia.
  - unfold left_half. rewrite <- Lm'. rewrite (lo_div m Wm). unfold blk.
    replace (129 - n_prefix n1)%nat with (128 - n_prefix m)%nat by lia. apply N.mod_mul.
    apply N.pow_nonzero. lia.
  - pose proof (blk_pos (n_prefix n1)). unfold lo, hi, val, num in *. lia.
Qed.

Lemma merge_exact ctz0 n1 n2 : valid_network n1 -> valid_network n2 ->
  network_merge ctz0 n1 n2 = Ok None \/
  exists m, network_merge ctz0 n1 n2 = Ok (Some m) /\
    two_halves n1 n2 /\ same_attributes n1 n2 /\ union_of m n1 n2.
Proof.
  intros V1 V2. apply valid_net_wf in V1 as W1. apply valid_net_wf in V2 as W2.
  destruct (network_merge_sound ctz0 n1 n2 W1 W2) as [E|(H & m & E & M)]; auto. right. exists m. split; auto.
  destruct (halves_two n1 n2 V1 V2 H m M). split; auto. split; auto. apply (h_attrs n1 n2 H).
Qed.

Lemma merge_all ctz0 n1 n2 : (8 <= ctz0)%nat -> valid_network n1 -> valid_network n2 ->
  two_halves n1 n2 -> same_attributes n1 n2 -> ~ (num (n_first n1) = 0 /\ n_prefix n1 = 80%nat) ->
  exists m, network_merge ctz0 n1 n2 = Ok (Some m) /\ union_of m n1 n2.
Proof.
  intros Hc V1 V2 H A B. apply two_halves_halves in H as Hh; auto.
  apply valid_net_wf in V1 as W1. apply valid_net_wf in V2 as W2.
  destruct (network_merge_complete ctz0 n1 n2 Hc W1 W2 Hh B) as (m & E & M).
  exists m. split; auto. apply (halves_two n1 n2 V1 V2 Hh m M).
Qed.

(** country codes *)
Lemma set_cc_spec n s : valid_network n ->
  match s with
  | None | Some [] => exists n', set_country_code n s = Ok n' /\ get_country_code n' = []
  | Some [a; b] =>
      if (65 <=? a) && (a <=? 90) && (65 <=? b) && (b <=? 90) && negb (a =? 88)
      then exists n', set_country_code n s = Ok n' /\ get_country_code n' = [a; b]
      else set_country_code n s = Err (-EINVAL)
  | _ => set_country_code n s = Err (-EINVAL)
  end.
Proof.
  intros _. destruct s as [[|a [|b [|c s]]]|]; cbn [set_country_code]; try reflexivity.
  - eexists. split; [reflexivity|]. reflexivity.
  - destruct ((65 <=? a) && (a <=? 90) && (65 <=? b) && (b <=? 90) && negb (a =? 88)) eqn:E.
    + replace (cc_is_valid (Some [a; b])) with true by (symmetry; apply cc_valid_iff; lia).
      cbn [negb]. eexists. split; [reflexivity|]. unfold get_country_code. cbn.
      destruct (N.eqb_spec a 0); [lia|]. destruct (N.eqb_spec b 0); [lia|]. reflexivity.
    + destruct (cc_is_valid (Some [a; b])) eqn:V; [|reflexivity].
      apply cc_valid_iff in V. lia.
  - eexists. split; [reflexivity|]. reflexivity.
Qed.

Lemma set_cc_frame n s n' : valid_network n -> set_country_code n s = Ok n' ->
  valid_network n' /\ n_first n' = n_first n /\ n_last n' = n_last n /\ n_prefix n' = n_prefix n /\
  n_family n' = n_family n /\ n_asn n' = n_asn n /\ n_flags n' = n_flags n.
Proof.
  intros V H. assert (X : exists c, n' = with_cc n c /\ cc_ok c).
  { apply valid_net_wf in V. destruct s as [[|a [|b [|c s]]]|]; cbn [set_country_code] in H.
    - injection H as <-. eexists. split; [reflexivity|]. left. cbn. split; auto.
      destruct (w_cc n V) as [[_ X]|X]; auto. destruct (n_cc n) as [x y]. apply cc_valid_iff in X. cbn in *. lia.
    - discriminate.
    - destruct (cc_is_valid (Some [a; b])) eqn:Va; [|discriminate]. cbn in H. injection H as <-.
      eexists. split; [reflexivity|]. right. exact Va.
    - discriminate.
    - injection H as <-. eexists. split; [reflexivity|]. left. cbn. split; auto.
      destruct (w_cc n V) as [[_ X]|X]; auto. destruct (n_cc n) as [x y]. apply cc_valid_iff in X. cbn in *. lia. }
  destruct X as (c & -> & Hc). split; [|repeat split].
  apply valid_net_wf in V. apply valid_net_wf. destruct V. constructor; auto.
Qed.

Lemma matches_cc_valid n a b : valid_network n ->
  65 <= a <= 90 -> 65 <= b <= 90 -> a <> 88 ->
  (matches_country_code n (Some [a; b]) = Ok 1 /\ get_country_code n = [a; b]) \/
  (matches_country_code n (Some [a; b]) = Ok 0 /\ get_country_code n <> [a; b]).
Proof.
  intros V Ha Hb Hx. unfold matches_country_code.
  assert (Sp : special_code_to_flag (Some [a; b]) = 0%Z).
  { cbn -[N.eqb]. unfold strncmp2_eq, chr. cbn -[N.eqb].
    destruct (N.eqb_spec 49 b); [lia|]. destruct (N.eqb_spec 50 b); [lia|].
    destruct (N.eqb_spec 51 b); [lia|]. destruct (N.eqb_spec 88 a); [lia|].
    rewrite !andb_false_r. reflexivity. }
  rewrite Sp. cbn [negb Z.eqb].
  replace (cc_is_valid (Some [a; b])) with true by (symmetry; apply cc_valid_iff; lia).
  cbn [negb]. unfold get_country_code. destruct (n_cc n) as [x y]. cbn [fst snd chr nth cc_str].
  destruct (N.eqb_spec x a) as [->|Nx].
  - destruct (N.eqb_spec y b) as [->|Ny].
    + left. split; auto. unfold cc_str. destruct (N.eqb_spec a 0); [lia|]. destruct (N.eqb_spec b 0); [lia|]. reflexivity.
    + right. split; auto. unfold cc_str. destruct (N.eqb_spec a 0); [lia|].
      destruct (N.eqb_spec y 0); intros Q; [discriminate|]. injection Q. auto.
  - right. split; auto. unfold cc_str. destruct (N.eqb_spec x 0); [discriminate|].
    destruct (N.eqb_spec y 0); [discriminate|]. intros Q. injection Q. auto.
Qed.

Lemma has_flag_pow n k : has_flag n (2 ^ k) <> 0 <-> N.testbit (n_flags n) k = true.
Proof.
  unfold has_flag. split.
  - intros H. destruct (N.testbit (n_flags n) k) eqn:E; auto. exfalso. apply H. apply N.bits_inj. intro i.
    rewrite N.land_spec, N.bits_0, N.pow2_bits_eqb. destruct (N.eqb_spec k i); [subst; now rewrite E|apply andb_false_r].
  - intros H E. assert (X : N.testbit (N.land (n_flags n) (2 ^ k)) k = true).
    { rewrite N.land_spec, H, N.pow2_bits_true. reflexivity. }
    rewrite E, N.bits_0 in X. discriminate.
Qed.

Lemma matches_cc_special n : valid_network n ->
  forall code k, In (code, k) [([65; 49], 0); ([65; 50], 1); ([65; 51], 2); ([88; 68], 3)] ->
  exists r, matches_country_code n (Some code) = Ok r /\ (r <> 0 <-> N.testbit (n_flags n) k = true).
Proof.
  intros _ code k H. cbn in H.
  decompose [or] H; match goal with E : (_, _) = _ |- _ => injection E as <- <- | F : False |- _ => destruct F end;
    (eexists; split; [reflexivity|]).
  - apply (has_flag_pow n 0).
  - apply (has_flag_pow n 1).
  - apply (has_flag_pow n 2).
  - apply (has_flag_pow n 3).
Qed.

Lemma set_asn_valid n x : valid_network n -> x < 2 ^ 32 -> valid_network (set_asn n x).
Proof. intros V H. apply valid_net_wf in V. apply valid_net_wf. destruct V. constructor; auto. Qed.

Lemma set_flag_valid n x : valid_network n -> x < 2 ^ 32 -> valid_network (set_flag n x).
Proof.
  intros V H. apply valid_net_wf in V. apply valid_net_wf. destruct V. constructor; auto.
  change (N.lor (n_flags n) x < 2 ^ 32). apply lt_pow2_log2. intros i Hi. rewrite N.lor_spec.
  rewrite <- (N.mod_small (n_flags n) (2 ^ 32)), <- (N.mod_small x (2 ^ 32)) by auto.
  now rewrite !N.mod_pow2_bits_high by auto.
Qed.
