(** Address arithmetic in terms of [num]: what PropsAddress states. *)
From Coq Require Import NArith ZArith List Bool Arith Lia ZifyBool ZifyNat ZifyN.
From Verif Require Import Base LemmasBase ModelAddress LemmasAddress ModelCountryCode ModelNetwork
  LemmasNetwork SpecNetwork LemmasSpecNetwork.
Import ListNotations.
Open Scope N_scope.

Lemma low_part_6 v : v < 2 ^ 128 -> mappedb v = false -> low_part v = v.
Proof. intros H M. unfold low_part, low_bits. rewrite M. now apply N.mod_small. Qed.

Lemma low_part_4 v : mappedb v = true -> v = 65535 * 2 ^ 32 + low_part v /\ low_part v < 2 ^ 32.
Proof.
  intros M. unfold low_part, low_bits. rewrite M. unfold mappedb in M.
  pose proof (N.div_mod v (2 ^ 32) ltac:(lia)). pose proof (N.mod_lt v (2 ^ 32) ltac:(lia)). lia.
Qed.

Lemma is_last_iff v : v < 2 ^ 128 -> is_last v <-> v = 0xffffffffffff \/ v = 2 ^ 128 - 1.
Proof.
  intros H. unfold is_last. destruct (mappedb v) eqn:M.
  - pose proof (low_part_4 v M). apply mappedb_range in M as M2. unfold low_bits. rewrite M. lia.
  - rewrite low_part_6 by auto. unfold low_bits. rewrite M. split; [auto|].
    intros [->| ->]; [discriminate M|auto].
Qed.

Lemma is_zero_iff v : v < 2 ^ 128 -> is_zero v <-> v = 0xffff00000000 \/ v = 0.
Proof.
  intros H. unfold is_zero. destruct (mappedb v) eqn:M.
  - pose proof (low_part_4 v M). apply mappedb_range in M as M2. lia.
  - rewrite low_part_6 by auto. split; [auto|]. intros [->| ->]; [discriminate M|auto].
Qed.

Lemma cmp_num a b : is_addr a -> is_addr b ->
  (num a = num b /\ addr_cmp a b = 0%Z) \/ (num a < num b /\ addr_cmp a b = (-1)%Z) \/
  (num b < num a /\ addr_cmp a b = 1%Z).
Proof.
  intros Ha Hb. rewrite addr_cmp_spec by auto. unfold num, val.
  destruct (N.compare_spec (be a) (be b)); cbn; auto.
Qed.

Lemma increment_num a : is_addr a ->
  is_addr (addr_increment a) /\
  num (addr_increment a) =
    if (num a =? 0xffffffffffff) || (num a =? 2 ^ 128 - 1) then num a else num a + 1.
Proof.
  intros H. destruct (addr_increment_wf_val a H) as (W & L & NL). split; auto.
  pose proof (is_last_iff (val a) (val_bound a H)) as I. unfold num, val in *.
  destruct (N.eqb_spec (be a) 0xffffffffffff), (N.eqb_spec (be a) (2 ^ 128 - 1)); cbn [orb];
    try (apply L, I; auto); apply NL; intros X; apply I in X; tauto.
Qed.

Lemma decrement_num a : is_addr a -> num a <> 0xff0000000000 ->
  is_addr (addr_decrement a) /\
  num (addr_decrement a) =
    if (num a =? 0xffff00000000) || (num a =? 0) then num a else num a - 1.
Proof.
  intros H Hb. destruct (addr_decrement_wf_val a H) as (W & L & NL).
  { unfold dec_bad. unfold num, val in *. lia. }
  split; auto. pose proof (is_zero_iff (val a) (val_bound a H)) as I. unfold num, val in *.
  destruct (N.eqb_spec (be a) 0xffff00000000), (N.eqb_spec (be a) 0); cbn [orb];
    try (apply L, I; auto).
  rewrite <- NL; [lia|]. intros X; apply I in X; tauto.
Qed.

Lemma sub_num a b : is_addr a -> is_addr b -> (is_ipv4 (num a) <-> is_ipv4 (num b)) ->
  exists r, addr_sub a b = Ok r /\ is_addr r /\
    (is_ipv4 (num a) -> Z.of_N (num r) = (0xffff00000000 + (Z.of_N (num a) - Z.of_N (num b)) mod 2 ^ 32)%Z) /\
    (~ is_ipv4 (num a) -> Z.of_N (num r) = ((Z.of_N (num a) - Z.of_N (num b)) mod 2 ^ 128)%Z).
Proof.
  intros Ha Hb F. rewrite !is_ipv4_mapped in *.
  destruct (addr_sub_spec a b Ha Hb) as (r & E & W & V).
  { unfold num, val in *. destruct (mappedb (be a)), (mappedb (be b)); auto; exfalso; intuition congruence. }
  exists r. split; auto. split; auto. unfold num in *. fold (val a) (val b) (val r) in *. split; intros M; rewrite is_ipv4_mapped in M.
  - pose proof (low_part_4 _ M). pose proof (low_part_4 (val b) (proj1 F M)).
    rewrite M in V. unfold low_bits in V. rewrite M in V. rewrite V. f_equal. f_equal. lia.
  - assert (Ma : mappedb (val a) = false) by (destruct (mappedb (val a)); congruence).
    assert (Mb : mappedb (val b) = false) by (destruct (mappedb (val b)); intuition congruence).
    rewrite Ma in V. unfold low_bits in V. rewrite Ma in V. rewrite V.
    rewrite !low_part_6 by auto using val_bound. reflexivity.
Qed.

Lemma sub_num_families a b : is_addr a -> is_addr b -> ~ (is_ipv4 (num a) <-> is_ipv4 (num b)) ->
  addr_sub a b = Err 1.
Proof.
  intros Ha Hb F. rewrite !is_ipv4_mapped in *. apply addr_sub_families; auto.
  intros E. apply F. unfold num. fold (val a) (val b). rewrite E. tauto.
Qed.

(** number of address bits of the family *)
Definition width (v : N) : nat := if mappedb v then 32%nat else 128%nat.

Lemma low_part_testbit v i : i < low_bits v -> N.testbit (low_part v) i = N.testbit v i.
Proof. intros H. unfold low_part. now apply N.mod_pow2_bits_low. Qed.

Lemma low_part_testbit_high v i : low_bits v <= i -> N.testbit (low_part v) i = false.
Proof. intros H. unfold low_part. now apply N.mod_pow2_bits_high. Qed.

Lemma common_bits_num a b W : is_addr a -> is_addr b -> 
  (is_ipv4 (num a) /\ is_ipv4 (num b) /\ W = 32%nat \/ ~ is_ipv4 (num a) /\ ~ is_ipv4 (num b) /\ W = 128%nat) ->
  exists c, addr_common_bits a b = Some c /\ (c <= W)%nat /\
    agree (128 - W + c) (num a) (num b) /\
    ((c < W)%nat -> ~ agree (128 - W + c + 1) (num a) (num b)).
Proof.
  intros Ha Hb F. rewrite !is_ipv4_mapped in *.
  assert (M : mappedb (val a) = mappedb (val b)).
  { unfold num, val in *. destruct (mappedb (be a)), (mappedb (be b)); auto; exfalso; intuition congruence. }
  assert (EW : N.to_nat (low_bits (val a)) = W).
  { unfold low_bits. unfold num, val in *. destruct (mappedb (be a)); intuition; try congruence; lia. }
  assert (EWb : low_bits (val b) = low_bits (val a)) by (unfold low_bits; now rewrite M).
  assert (W128 : (W <= 128)%nat) by intuition lia.
  destruct (addr_common_bits_spec a b Ha Hb M) as (c & E & C1 & C2 & C3). rewrite EW in *.
  exists c. split; auto. split; auto.
  pose proof (val_bound a Ha) as Va. pose proof (val_bound b Hb) as Vb.
  rewrite div_pow2_eq in C2.
  assert (Top : (W < 128)%nat -> val a / 2 ^ 32 = val b / 2 ^ 32).
  { intros L. assert (Ma : mappedb (val a) = true) by (unfold num, val in *; intuition lia).
    rewrite M in Ma. pose proof Ma as Mb. rewrite <- M in Ma. unfold mappedb in *. lia. }
  split.
  - rewrite agree_iff; auto; [|lia]. unfold blk. rewrite div_pow2_eq. intros i Hi.
    destruct (N.lt_ge_cases i (N.of_nat W)) as [L|L].
    + assert (i < low_bits (val a)) as Li by (clear -L EW; lia).
      rewrite <- (low_part_testbit (val a)), <- (low_part_testbit (val b)) by (rewrite ?EWb; exact Li).
      apply C2. clear -Hi W128 C1. lia.
    + destruct (Nat.eq_dec W 128) as [->|Wn].
      * assert (Z : forall u, u < 2 ^ 128 -> N.testbit u i = false).
        { intros u Hu. rewrite <- (N.mod_small u (2 ^ 128)) by auto. apply N.mod_pow2_bits_high. lia. }
        unfold num. fold (val a) (val b). now rewrite !Z.
      * assert (T := Top ltac:(lia)). rewrite div_pow2_eq in T. apply T. clear -F L W128 Wn. intuition lia.
  - intros L A. apply (C3 L). specialize (A (128 - W + c)%nat ltac:(clear; lia) ltac:(clear -L W128; lia)).
    assert (N.of_nat (W - c - 1) < low_bits (val a)) as Li by (clear -L EW; lia).
    rewrite !low_part_testbit by (rewrite ?EWb; exact Li).
    replace (W - c - 1)%nat with (127 - (128 - W + c))%nat by (clear -L W128; lia). exact A.
Qed.

Lemma common_bits_families a b : is_addr a -> is_addr b -> ~ (is_ipv4 (num a) <-> is_ipv4 (num b)) ->
  addr_common_bits a b = None.
Proof.
  intros Ha Hb F. rewrite !is_ipv4_mapped in *. unfold addr_common_bits.
  rewrite !v4mapped_val by auto. unfold num, val in *.
  destruct (mappedb (be a)), (mappedb (be b)); cbn; auto; exfalso; intuition congruence.
Qed.

Lemma get_bit_num a i : is_addr a -> (i < 128)%nat ->
  addr_get_bit a i = if N.testbit (num a) (N.of_nat (127 - i)) then 1 else 0.
Proof. intros Ha Hi. rewrite addr_get_bit_spec by auto. reflexivity. Qed.

Lemma set_bit_num a i (b : bool) : is_addr a -> (i < 128)%nat ->
  is_addr (addr_set_bit a i (if b then 1 else 0)) /\
  forall k, N.testbit (num (addr_set_bit a i (if b then 1 else 0))) k =
    if k =? N.of_nat (127 - i) then b else N.testbit (num a) k.
Proof.
  intros Ha Hi. assert (W : wf (addr_set_bit a i (if b then 1 else 0))) by now apply addr_set_bit_wf.
  split; auto. intros k. destruct (N.lt_ge_cases k 128) as [L|L].
  - assert (G := addr_set_bit_get a i (if b then 1 else 0) (127 - N.to_nat k) Ha Hi ltac:(lia) ltac:(destruct b; lia)).
    rewrite !addr_get_bit_spec in G by (auto; lia).
    replace (N.of_nat (127 - (127 - N.to_nat k))) with k in G by lia. unfold num.
    fold (val a) (val (addr_set_bit a i (if b then 1 else 0))).
    destruct (Nat.eqb_spec (127 - N.to_nat k) i), (N.eqb_spec k (N.of_nat (127 - i))); try lia.
    + destruct (N.testbit (val (addr_set_bit a i (if b then 1 else 0))) k), b; cbn in G; auto; lia.
    + now apply N.b2n_inj.
  - assert (Z : forall u, u < 2 ^ 128 -> N.testbit u k = false).
    { intros u Hu. rewrite <- (N.mod_small u (2 ^ 128)) by auto. apply N.mod_pow2_bits_high. lia. }
    unfold num. rewrite !Z by (apply val_bound; auto).
    destruct (N.eqb_spec k (N.of_nat (127 - i))); auto; lia.
Qed.

Lemma bit_length_num ctz0 a W : is_addr a ->
  (is_ipv4 (num a) /\ W = 32%nat \/ ~ is_ipv4 (num a) /\ W = 128%nat) ->
  (addr_bit_length ctz0 a <= W)%nat /\
  num a mod 2 ^ N.of_nat (W - addr_bit_length ctz0 a) = 0 /\
  ((8 <= ctz0)%nat -> (0 < addr_bit_length ctz0 a)%nat ->
   num a mod 2 ^ N.of_nat (W - addr_bit_length ctz0 a + 1) <> 0).
Proof.
  intros Ha F. rewrite is_ipv4_mapped in F.
  destruct (addr_bit_length_spec ctz0 a Ha) as (B1 & B2 & B3).
  assert (EW : N.to_nat (low_bits (val a)) = W).
  { unfold low_bits. unfold num, val in *. destruct (mappedb (be a)); intuition; try congruence; lia. }
  rewrite EW in *. unfold num. fold (val a).
  split; auto. split.
  - set (e := N.of_nat (W - addr_bit_length ctz0 a)) in *.
    pose proof (mod_mod_pow2 (val a) e (low_bits (val a)) ltac:(subst e; clear -EW B1; lia)) as G.
    rewrite <- G. exact B2.
  - intros H1 H2. specialize (B3 H1 H2). set (e := N.of_nat (W - addr_bit_length ctz0 a + 1)) in *.
    pose proof (mod_mod_pow2 (val a) e (low_bits (val a)) ltac:(subst e; clear -EW B1 H2; lia)) as G.
    rewrite <- G. exact B3.
Qed.
