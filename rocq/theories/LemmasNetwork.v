(** Lemmas about networks. *)
From Coq Require Import NArith ZArith List Bool Arith Lia ZifyBool ZifyNat ZifyN.
From Verif Require Import Base LemmasBase ModelAddress LemmasAddress ModelCountryCode ModelNetwork.
Import ListNotations.
Open Scope N_scope.

Definition lo (n : network) : N := val (n_first n).
Definition hi (n : network) : N := val (n_last n).
Definition inb (n : network) (v : N) : Prop := lo n <= v <= hi n.

(** country codes that occur in network objects *)
Definition cc_ok (c : cc2) : Prop :=
  (fst c = 0 /\ snd c < 256) \/ cc_is_valid (Some [fst c; snd c]) = true.

Record net_wf (n : network) : Prop := {
  w_first : wf (n_first n);
  w_last : wf (n_last n);
  w_prefix : (n_prefix n <= 128)%nat;
  w_lo : first_of (lo n) (n_prefix n) = lo n;
  w_hi : hi n = last_of (lo n) (n_prefix n);
  w_family : n_family n = if mappedb (lo n) then AF_INET else AF_INET6;
  w_prefix4 : mappedb (lo n) = true -> (96 <= n_prefix n)%nat;
  w_cc : cc_ok (n_cc n);
  w_asn : n_asn n < 2 ^ 32;
  w_flags : n_flags n < 2 ^ 32
}.

Lemma lo_bound n : net_wf n -> lo n < 2 ^ 128.
Proof. intros H. apply val_bound, H. Qed.
Lemma hi_bound n : net_wf n -> hi n < 2 ^ 128.
Proof. intros H. apply val_bound, H. Qed.

Lemma blk_S p : (p < 128)%nat -> blk p = 2 * blk (S p).
Proof.
  intros H. unfold blk. replace (N.of_nat (128 - p)) with (N.succ (N.of_nat (128 - S p))) by lia.
  apply N.pow_succ_r'.
Qed.

Lemma blk_le_mul p q : (p <= q)%nat -> (q <= 128)%nat -> blk p = 2 ^ N.of_nat (q - p) * blk q.
Proof. intros. unfold blk. rewrite <- N.pow_add_r. f_equal. lia. Qed.

Lemma hi_lo n : net_wf n -> hi n = lo n + (blk (n_prefix n) - 1).
Proof.
  intros H. rewrite (w_hi n H). unfold last_of. fold (first_of (lo n) (n_prefix n)).
  now rewrite (w_lo n H).
Qed.

Lemma lo_div n : net_wf n -> lo n = lo n / blk (n_prefix n) * blk (n_prefix n).
Proof. intros H. symmetry. apply (w_lo n H). Qed.

Lemma lo_le_hi n : net_wf n -> lo n <= hi n.
Proof. intros H. rewrite (hi_lo n H). lia. Qed.

Lemma inb_iff n v : net_wf n -> inb n v <-> v / blk (n_prefix n) = lo n / blk (n_prefix n).
Proof.
  intros H. unfold inb. rewrite (hi_lo n H). pose proof (lo_div n H) as E.
  pose proof (blk_pos (n_prefix n)). set (b := blk (n_prefix n)) in *.
  set (q := lo n / b) in *. rewrite E. split.
  - intros [A B]. symmetry. apply (N.div_unique v b q (v - q * b)); lia.
  - intros <-. pose proof (N.div_mod v b ltac:(lia)). pose proof (N.mod_lt v b ltac:(lia)). lia.
Qed.

Lemma inb_lo n : net_wf n -> inb n (lo n).
Proof. intros H. pose proof (lo_le_hi n H). split; lia. Qed.
Lemma inb_hi n : net_wf n -> inb n (hi n).
Proof. intros H. pose proof (lo_le_hi n H). split; lia. Qed.

Lemma div_blk_mono p q v w : (p <= q)%nat -> (q <= 128)%nat -> v / blk q = w / blk q -> v / blk p = w / blk p.
Proof.
  intros H1 H2 E. rewrite (blk_le_mul p q), N.mul_comm by auto.
  rewrite <- !N.div_div by (unfold blk; apply N.pow_nonzero; lia). now rewrite E.
Qed.

(** two networks with a common address nest *)
Lemma nest n m v : net_wf n -> net_wf m -> inb n v -> inb m v -> (n_prefix n <= n_prefix m)%nat ->
  forall w, inb m w -> inb n w.
Proof.
  intros Hn Hm An Am Hp w Aw. rewrite inb_iff in * by auto.
  rewrite <- An. apply (div_blk_mono _ (n_prefix m)); auto; [apply Hm|]. congruence.
Qed.

Lemma nest_bounds n m v : net_wf n -> net_wf m -> inb n v -> inb m v -> (n_prefix n <= n_prefix m)%nat ->
  lo n <= lo m /\ hi m <= hi n.
Proof.
  intros Hn Hm An Am Hp.
  pose proof (nest n m v Hn Hm An Am Hp (lo m) (inb_lo m Hm)).
  pose proof (nest n m v Hn Hm An Am Hp (hi m) (inb_hi m Hm)).
  unfold inb in *. lia.
Qed.

Lemma net_eq n m : net_wf n -> net_wf m -> lo n = lo m -> n_prefix n = n_prefix m ->
  n_first n = n_first m /\ n_last n = n_last m /\ n_family n = n_family m.
Proof.
  intros Hn Hm E P. repeat split.
  - apply val_inj; auto; [apply Hn|apply Hm].
  - apply val_inj; [apply Hn|apply Hm|]. fold (hi n). fold (hi m).
    rewrite (hi_lo n Hn), (hi_lo m Hm), E, P. reflexivity.
  - rewrite (w_family n Hn), (w_family m Hm), E. reflexivity.
Qed.

Lemma blk_le_128 p : (p <= 128)%nat -> blk p <= 2 ^ 128.
Proof. intros H. unfold blk. apply N.pow_le_mono_r; lia. Qed.

(** inclusion determines the order of the prefixes *)
Lemma incl_prefix n m : net_wf n -> net_wf m -> lo n <= lo m -> hi m <= hi n -> (n_prefix n <= n_prefix m)%nat.
Proof.
  intros Hn Hm H1 H2. rewrite (hi_lo n Hn), (hi_lo m Hm) in *.
  destruct (Nat.le_gt_cases (n_prefix n) (n_prefix m)) as [|G]; auto. exfalso.
  assert (B : blk (n_prefix n) < blk (n_prefix m)).
  { unfold blk. apply N.pow_lt_mono_r; [lia|]. pose proof (w_prefix n Hn). lia. }
  pose proof (blk_pos (n_prefix n)). lia.
Qed.

(** comparison *)
Definition K (n : network) : N := lo n * 256 + N.of_nat (n_prefix n).

Lemma network_cmp_spec n m : net_wf n -> net_wf m -> network_cmp n m = cmp_code (K n ?= K m).
Proof.
  intros Hn Hm. unfold network_cmp. rewrite addr_cmp_spec by (apply Hn || apply Hm).
  fold (lo n). fold (lo m). unfold K.
  pose proof (w_prefix n Hn). pose proof (w_prefix m Hm).
  destruct (N.compare_spec (lo n) (lo m)); cbn [cmp_code Z.eqb negb].
  - rewrite H1.
    destruct (Nat.ltb_spec (n_prefix m) (n_prefix n)).
    + destruct (N.compare_spec (lo m * 256 + N.of_nat (n_prefix n)) (lo m * 256 + N.of_nat (n_prefix m))); try lia; reflexivity.
    + destruct (Nat.ltb_spec (n_prefix n) (n_prefix m)).
      * destruct (N.compare_spec (lo m * 256 + N.of_nat (n_prefix n)) (lo m * 256 + N.of_nat (n_prefix m))); try lia; reflexivity.
      * destruct (N.compare_spec (lo m * 256 + N.of_nat (n_prefix n)) (lo m * 256 + N.of_nat (n_prefix m))); try lia; reflexivity.
  - destruct (N.compare_spec (lo n * 256 + N.of_nat (n_prefix n)) (lo m * 256 + N.of_nat (n_prefix m))); try lia; reflexivity.
  - destruct (N.compare_spec (lo n * 256 + N.of_nat (n_prefix n)) (lo m * 256 + N.of_nat (n_prefix m))); try lia; reflexivity.
Qed.

Lemma network_cmp_0 n m : net_wf n -> net_wf m -> (network_cmp n m =? 0)%Z = (K n =? K m).
Proof.
  intros Hn Hm. rewrite network_cmp_spec by auto.
  destruct (N.compare_spec (K n) (K m)), (N.eqb_spec (K n) (K m)); cbn; auto; lia.
Qed.
Lemma network_cmp_pos n m : net_wf n -> net_wf m -> (0 <? network_cmp n m)%Z = (K m <? K n).
Proof.
  intros Hn Hm. rewrite network_cmp_spec by auto.
  destruct (N.compare_spec (K n) (K m)), (N.ltb_spec (K m) (K n)); cbn; auto; lia.
Qed.
Lemma network_cmp_neg n m : net_wf n -> net_wf m -> (network_cmp n m <? 0)%Z = (K n <? K m).
Proof.
  intros Hn Hm. rewrite network_cmp_spec by auto.
  destruct (N.compare_spec (K n) (K m)), (N.ltb_spec (K n) (K m)); cbn; auto; lia.
Qed.

Lemma K_eq n m : net_wf n -> net_wf m -> K n = K m <-> lo n = lo m /\ n_prefix n = n_prefix m.
Proof.
  intros Hn Hm. unfold K. pose proof (w_prefix n Hn). pose proof (w_prefix m Hm). lia.
Qed.

(** membership, inclusion, overlap *)
Lemma matches_iff n a : net_wf n -> wf a -> network_matches_address n a = true <-> inb n (val a).
Proof.
  intros Hn Ha. unfold network_matches_address, inb, lo, hi.
  rewrite !addr_cmp_spec by (auto; apply Hn).
  destruct (N.compare_spec (val (n_first n)) (val a)), (N.compare_spec (val (n_last n)) (val a));
    cbn; split; intros; try lia; discriminate.
Qed.

Lemma is_subnet_iff n m : net_wf n -> net_wf m -> is_subnet n m = true <-> lo n <= lo m /\ hi m <= hi n.
Proof.
  intros Hn Hm. unfold is_subnet.
  rewrite !addr_cmp_spec by (apply Hn || apply Hm).
  fold (lo n) (lo m) (hi n) (hi m).
  pose proof (incl_prefix n m Hn Hm).
  destruct (Nat.ltb_spec (n_prefix m) (n_prefix n)).
  - split; [discriminate|]. lia.
  - destruct (N.compare_spec (lo n) (lo m)), (N.compare_spec (hi n) (hi m));
    cbn; split; intros; try lia; discriminate.
Qed.

Lemma is_subnet_incl n m : net_wf n -> net_wf m -> is_subnet n m = true <-> (forall v, inb m v -> inb n v).
Proof.
  intros Hn Hm. rewrite is_subnet_iff by auto. unfold inb. split.
  - intros; lia.
  - intros H. pose proof (H _ (inb_lo m Hm)). pose proof (H _ (inb_hi m Hm)). lia.
Qed.

Lemma overlaps_iff n m : net_wf n -> net_wf m -> overlaps n m = true <-> exists v, inb n v /\ inb m v.
Proof.
  intros Hn Hm. unfold overlaps.
  pose proof (matches_iff n _ Hn (w_first m Hm)) as M1. pose proof (matches_iff m _ Hm (w_first n Hn)) as M2.
  pose proof (matches_iff n _ Hn (w_last m Hm)) as M3. pose proof (matches_iff m _ Hm (w_last n Hn)) as M4.
  fold (lo n) (lo m) (hi n) (hi m) in *. unfold inb in *.
  pose proof (lo_le_hi n Hn). pose proof (lo_le_hi m Hm).
  destruct (network_matches_address n (n_first m)).
  { split; auto. intros _. exists (lo m). intuition lia. }
  destruct (network_matches_address m (n_first n)).
  { split; auto. intros _. exists (lo n). intuition lia. }
  destruct (network_matches_address n (n_last m)).
  { split; auto. intros _. exists (hi m). intuition lia. }
  destruct (network_matches_address m (n_last n)).
  { split; auto. intros _. exists (hi n). intuition lia. }
  split; [discriminate|]. intros [v Hv]. exfalso.
  destruct M1 as [_ M1], M2 as [_ M2].
  destruct (N.le_gt_cases (lo n) (lo m)).
  - assert (false = true) by (apply M1; lia). discriminate.
  - assert (false = true) by (apply M2; lia). discriminate.
Qed.

Lemma nest_or_disjoint n m : net_wf n -> net_wf m ->
  overlaps n m = is_subnet n m || is_subnet m n.
Proof.
  intros Hn Hm. pose proof (overlaps_iff n m Hn Hm) as O.
  pose proof (is_subnet_incl n m Hn Hm) as S1. pose proof (is_subnet_incl m n Hm Hn) as S2.
  destruct (overlaps n m).
  - symmetry. apply orb_true_iff. destruct O as [O _]. destruct (O eq_refl) as [v [V1 V2]].
    destruct (Nat.le_ge_cases (n_prefix n) (n_prefix m)).
    + left. apply S1. eauto using nest.
    + right. apply S2. eauto using nest.
  - symmetry. apply orb_false_iff. split.
    + destruct (is_subnet n m); auto. symmetry. apply O. exists (lo m). split; [apply S1; auto|]; now apply inb_lo.
    + destruct (is_subnet m n); auto. symmetry. apply O. exists (lo n). split; [|apply S2; auto]; now apply inb_lo.
Qed.

(** creation *)
Lemma mapped_range v : mapped v <-> 65535 * 2 ^ 32 <= v < 65536 * 2 ^ 32.
Proof.
  unfold mapped. split.
  - intros E. pose proof (N.div_mod v (2 ^ 32) ltac:(lia)). pose proof (N.mod_lt v (2 ^ 32) ltac:(lia)). lia.
  - intros H. symmetry. apply (N.div_unique v (2 ^ 32) 65535 (v - 65535 * 2 ^ 32)); lia.
Qed.

Lemma mappedb_range v : mappedb v = true <-> 65535 * 2 ^ 32 <= v < 65536 * 2 ^ 32.
Proof. unfold mappedb. rewrite N.eqb_eq. apply mapped_range. Qed.

Lemma mapped_first v p : (96 <= p <= 128)%nat -> mappedb (first_of v p) = mappedb v.
Proof.
  intros H. unfold mappedb, first_of. f_equal.
  replace (2 ^ 32) with (2 ^ N.of_nat (p - 96) * blk p) by (unfold blk; rewrite <- N.pow_add_r; f_equal; lia).
  rewrite (N.mul_comm (2 ^ _)), <- !N.div_div by (unfold blk; apply N.pow_nonzero; lia).
  rewrite N.div_mul; auto. unfold blk; apply N.pow_nonzero; lia.
Qed.

Lemma mapped_first_short v p : (p < 96)%nat -> mappedb (first_of v p) = false.
Proof.
  intros H. unfold mappedb, first_of. apply N.eqb_neq. intros E.
  assert (B : blk p = 2 ^ N.of_nat (95 - p) * 2 * 2 ^ 32).
  { unfold blk. rewrite <- N.mul_assoc.
    change (2 * 2 ^ 32) with (2 ^ 33). rewrite <- N.pow_add_r. f_equal. lia. }
  set (q := v / blk p) in E. rewrite B, N.mul_assoc, N.div_mul in E by lia.
  apply (f_equal N.even) in E.
  rewrite !N.even_mul in E. cbn in E. rewrite !orb_true_r in E. discriminate.
Qed.

Lemma first_of_idem v p : first_of (first_of v p) p = first_of v p.
Proof. unfold first_of. now rewrite N.div_mul by (unfold blk; apply N.pow_nonzero; lia). Qed.

Lemma last_of_first v p : last_of (first_of v p) p = last_of v p.
Proof. unfold last_of, first_of. now rewrite N.div_mul by (unfold blk; apply N.pow_nonzero; lia). Qed.

Lemma addr_family_val a : wf a -> addr_family a = if mappedb (val a) then AF_INET else AF_INET6.
Proof. intros H. unfold addr_family. now rewrite v4mapped_val. Qed.

Definition raw_prefix (v : N) (prefix : N) : nat :=
  if mappedb v then (N.to_nat prefix + 96)%nat else N.to_nat prefix.

Lemma valid_prefix_iff a prefix : wf a ->
  addr_valid_prefix a prefix = (prefix <=? low_bits (val a)).
Proof.
  intros H. unfold addr_valid_prefix, low_bits. rewrite addr_family_val by auto.
  now destruct (mappedb (val a)).
Qed.

Lemma network_new_spec a prefix : wf a ->
  if prefix <=? low_bits (val a) then
    exists n, network_new a prefix = Ok n /\ net_wf n /\
      lo n = first_of (val a) (raw_prefix (val a) prefix) /\
      n_prefix n = raw_prefix (val a) prefix /\
      mappedb (lo n) = mappedb (val a) /\
      n_cc n = (0, 0) /\ n_asn n = 0 /\ n_flags n = 0
  else network_new a prefix = Err 1.
Proof.
  intros H. unfold network_new. rewrite valid_prefix_iff by auto.
  destruct (N.leb_spec prefix (low_bits (val a))) as [Hp|Hp]; cbn [negb]; auto.
  rewrite v4mapped_val by auto.
  fold (raw_prefix (val a) prefix).
  assert (P : (raw_prefix (val a) prefix <= 128)%nat).
  { unfold raw_prefix, low_bits in *. destruct (mappedb (val a)); lia. }
  destruct (addr_and_spec a _ H P) as [W1 V1].
  set (f := addr_and a _) in *.
  assert (I : val f = first_of (val f) (raw_prefix (val a) prefix)) by (rewrite V1, first_of_idem; auto).
  destruct (addr_or_spec f _ W1 P I) as [W2 V2].
  assert (M : mappedb (first_of (val a) (raw_prefix (val a) prefix)) = mappedb (val a)).
  { unfold raw_prefix, low_bits in *. destruct (mappedb (val a)) eqn:E.
    - rewrite mapped_first; auto; lia.
    - destruct (Nat.lt_ge_cases (N.to_nat prefix) 96).
      + now apply mapped_first_short.
      + rewrite mapped_first; auto; lia. }
  eexists. split; [reflexivity|]. unfold lo; cbn [n_first n_prefix n_cc n_asn n_flags].
  rewrite V1. repeat split; auto; unfold lo, hi; cbn [n_first n_last n_prefix n_family n_cc fst snd n_asn n_flags];
    auto; try apply W1; try apply W2; try lia.
  - rewrite addr_family_val, V1 by auto. reflexivity.
  - intros E. rewrite V1, M in E. unfold raw_prefix. rewrite E. lia.
  - left. cbn. lia.
Qed.

(** prefix as seen by the user *)
Lemma network_prefix_val n : net_wf n ->
  network_prefix n = if mappedb (lo n) then N.of_nat (n_prefix n - 96) else N.of_nat (n_prefix n).
Proof.
  intros H. unfold network_prefix. rewrite (w_family n H).
  pose proof (w_prefix n H). pose proof (w_prefix4 n H).
  destruct (mappedb (lo n)); auto. specialize (H1 eq_refl).
  replace (N.of_nat (n_prefix n) + (2 ^ 32 - 96)) with (N.of_nat (n_prefix n - 96) + 1 * 2 ^ 32) by lia.
  rewrite N.mod_add by lia. apply N.mod_small. lia.
Qed.

Lemma raw_network_prefix n : net_wf n -> raw_prefix (lo n) (network_prefix n) = n_prefix n.
Proof.
  intros H. rewrite network_prefix_val by auto. unfold raw_prefix.
  pose proof (w_prefix4 n H). destruct (mappedb (lo n)); lia.
Qed.

Lemma cc_valid_nz a b : cc_is_valid (Some [a; b]) = true -> 65 <= a <= 90 /\ 65 <= b <= 90 /\ a <> 88.
Proof.
  unfold cc_is_valid. cbn [length Nat.eqb negb existsb chr nth].
  destruct (N.ltb_spec a 65), (N.ltb_spec 90 a), (N.ltb_spec b 65), (N.ltb_spec 90 b), (N.eqb_spec a 88);
    cbn; intros; try discriminate; lia.
Qed.

Lemma copy_attributes_spec from to : net_wf from -> net_wf to ->
  n_cc to = (0, 0) -> n_asn to = 0 -> n_flags to = 0 ->
  exists c, copy_attributes from to = Ok (with_flags (with_asn (with_cc to c) (n_asn from)) (n_flags from)) /\
  cc_ok c /\ cc_str c = cc_str (n_cc from) /\ (fst (n_cc from) <> 0 -> c = n_cc from) /\
  (fst (n_cc from) = 0 -> c = (0, 0)).
Proof.
  intros Hf Ht E1 E2 E3. destruct to as [tf t1 t2 tp tc ta tl]; cbn in *; subst.
  unfold copy_attributes, get_country_code.
  pose proof (w_cc from Hf) as C. destruct (n_cc from) as [a b] eqn:Ec. cbn [fst snd] in *.
  destruct C as [[C1 C2]|C]; cbn [fst snd] in *.
  - subst a. cbn. exists (0, 0). repeat split; auto; [|left; cbn; lia|congruence].
    unfold set_asn, set_flag, with_asn, with_flags, with_cc. cbn.
    destruct (N.eqb_spec (n_asn from) 0) as [E|E]; cbn; rewrite ?E; reflexivity.
  - pose proof (cc_valid_nz a b C) as V.
    assert (cc_str (a, b) = [a; b]) as ->.
    { unfold cc_str. destruct (N.eqb_spec a 0); [lia|]. destruct (N.eqb_spec b 0); [lia|]. reflexivity. }
    unfold set_country_code. cbv iota. rewrite C. cbn [negb ignore_err bind].
    exists (a, b). repeat split; auto.
    + unfold set_asn, set_flag, with_asn, with_flags, with_cc, cc_copy, chr. cbn.
      destruct (N.eqb_spec (n_asn from) 0) as [E|E]; cbn; rewrite ?E; reflexivity.
    + right. auto.
    + unfold cc_str. destruct (N.eqb_spec a 0); [lia|]. destruct (N.eqb_spec b 0); [lia|]. reflexivity.
    + intros ->. lia.
Qed.

Lemma net_wf_attrs n c a f : net_wf n -> cc_ok c -> a < 2 ^ 32 -> f < 2 ^ 32 ->
  net_wf (with_flags (with_asn (with_cc n c) a) f).
Proof. intros [] Hc Ha Hf. constructor; auto. Qed.

(** splitting *)
Lemma mapped_last_short q p : (p < 96)%nat -> mappedb (q * blk p + (blk p - 1)) = true ->
  (q + 1) * blk p = 2 ^ 48.
Proof.
  intros Hp M. apply mappedb_range in M.
  assert (B : blk p = 2 ^ N.of_nat (95 - p) * 2 ^ 33).
  { unfold blk. rewrite <- N.pow_add_r. f_equal. lia. }
  assert (0 < 2 ^ N.of_nat (95 - p)) by (apply N.neq_0_lt_0, N.pow_nonzero; lia).
  rewrite B in *. set (m := 2 ^ N.of_nat (95 - p)) in *.
  replace ((q + 1) * (m * 2 ^ 33)) with ((q + 1) * m * 2 ^ 33) by lia.
  assert (65535 * 2 ^ 32 < (q + 1) * m * 2 ^ 33 <= 2 ^ 48) by lia.
  set (X := (q + 1) * m) in *. lia.
Qed.

Definition split_bad (n : network) : Prop :=
  (lo n = 0 /\ n_prefix n = 79%nat) \/ (lo n = 65534 * 2 ^ 32 /\ n_prefix n = 95%nat).

Lemma lo_half n : net_wf n -> (n_prefix n < 128)%nat ->
  exists q, lo n = q * 2 * blk (S (n_prefix n)).
Proof.
  intros H Hp. exists (lo n / blk (n_prefix n)). rewrite (lo_div n H) at 1.
  rewrite (blk_S (n_prefix n)) at 2 by auto. lia.
Qed.

Lemma odd_pow2 q a b : (q * 2 + 1) * 2 ^ a = 2 ^ b -> q = 0 /\ a = b.
Proof.
  intros E. destruct (N.lt_trichotomy a b) as [L|[->|L]].
  - exfalso. replace b with (N.succ (b - a - 1) + a) in E by lia.
    rewrite N.pow_add_r in E. apply N.mul_cancel_r in E; [|apply N.pow_nonzero; lia].
    rewrite N.pow_succ_r' in E. lia.
  - assert (0 < 2 ^ b) by (apply N.neq_0_lt_0, N.pow_nonzero; lia). nia.
  - exfalso. assert (2 ^ b < 2 ^ a) by (apply N.pow_lt_mono_r; lia). nia.
Qed.

Lemma split_hi_mapped n : net_wf n -> (n_prefix n < 128)%nat -> mappedb (lo n) = false ->
  mappedb (lo n + (blk (S (n_prefix n)) - 1)) = true -> lo n = 0 /\ n_prefix n = 79%nat.
Proof.
  intros H Hp U M. destruct (lo_half n H Hp) as [q E].
  destruct (Nat.lt_ge_cases (S (n_prefix n)) 96) as [L|L].
  - rewrite E in M. apply mapped_last_short in M; auto.
    unfold blk in M. change 48 with (N.of_nat 48) in M.
    apply odd_pow2 in M as [-> M]. lia.
  - exfalso. rewrite <- (mapped_first _ (S (n_prefix n))) in M by lia.
    revert M. rewrite E. unfold first_of.
    rewrite N.div_add_l by (unfold blk; apply N.pow_nonzero; lia).
    rewrite N.div_small by (pose proof (blk_pos (S (n_prefix n))); lia).
    rewrite N.add_0_r, <- E, U. discriminate.
Qed.

Lemma split_mid_mapped n : net_wf n -> (n_prefix n < 128)%nat -> mappedb (lo n) = false ->
  mappedb (lo n + blk (S (n_prefix n))) = true -> lo n = 65534 * 2 ^ 32 /\ n_prefix n = 95%nat.
Proof.
  intros H Hp U M. destruct (lo_half n H Hp) as [q E].
  destruct (Nat.lt_ge_cases (S (n_prefix n)) 96) as [L|L].
  - exfalso. rewrite E in M. replace (q * 2 * blk (S (n_prefix n)) + blk (S (n_prefix n))) with ((q * 2 + 1) * blk (S (n_prefix n))) in M by lia.
    pose proof (mapped_first_short ((q * 2 + 1) * blk (S (n_prefix n))) (S (n_prefix n)) L) as F.
    unfold first_of in F. rewrite N.div_mul in F by (unfold blk; apply N.pow_nonzero; lia). congruence.
  - destruct (Nat.eq_dec (n_prefix n) 95) as [P|P].
    + rewrite P in *. change (blk 96) with (2 ^ 32) in *. apply mappedb_range in M. lia.
    + exfalso.
      assert (F : first_of (lo n + blk (S (n_prefix n))) (n_prefix n) = lo n).
      { unfold first_of. rewrite <- (w_lo n H) at 2. unfold first_of. f_equal.
        pose proof (proj1 (inb_iff n (lo n + blk (S (n_prefix n))) H)) as I. rewrite I; auto.
        unfold inb. rewrite (hi_lo n H), (blk_S (n_prefix n)) by auto.
        pose proof (blk_pos (S (n_prefix n))). lia. }
      rewrite <- (mapped_first _ (n_prefix n)), F in M by lia. congruence.
Qed.

Lemma split_mapped_4 n v : net_wf n -> mappedb (lo n) = true -> inb n v -> mappedb v = true.
Proof.
  intros H M I. pose proof (w_prefix4 n H M). pose proof (w_prefix n H).
  rewrite <- (mapped_first v (n_prefix n)) by lia. unfold first_of.
  apply (inb_iff n v H) in I. rewrite I. fold (first_of (lo n) (n_prefix n)). now rewrite (w_lo n H).
Qed.

Lemma subnets_spec n : net_wf n -> (n_prefix n < 128)%nat -> ~ split_bad n ->
  exists s1 s2, subnets n = Ok (s1, s2) /\ net_wf s1 /\ net_wf s2 /\
    n_prefix s1 = S (n_prefix n) /\ n_prefix s2 = S (n_prefix n) /\
    lo s1 = lo n /\ lo s2 = lo n + blk (S (n_prefix n)) /\
    n_family s1 = n_family n /\ n_family s2 = n_family n /\
    (n_asn s1 = n_asn n /\ n_flags s1 = n_flags n /\ cc_str (n_cc s1) = cc_str (n_cc n)) /\
    (n_asn s2 = n_asn n /\ n_flags s2 = n_flags n /\ cc_str (n_cc s2) = cc_str (n_cc n)).
Proof.
  intros H Hp Hbad. unfold subnets. rewrite network_prefix_val by auto.
  pose proof (w_prefix4 n H) as P4.
  set (p := if mappedb (lo n) then N.of_nat (n_prefix n - 96) else N.of_nat (n_prefix n)).
  assert (Hp1 : (p + 1) mod 2 ^ 32 = p + 1).
  { apply N.mod_small. subst p. destruct (mappedb (lo n)); lia. }
  rewrite Hp1, valid_prefix_iff by apply H. fold (lo n).
  assert (V : p + 1 <=? low_bits (lo n) = true).
  { unfold low_bits. subst p. destruct (mappedb (lo n)); [specialize (P4 eq_refl)|]; lia. }
  rewrite V. cbn [negb].
  assert (R : raw_prefix (lo n) (p + 1) = S (n_prefix n)).
  { unfold raw_prefix. subst p. destruct (mappedb (lo n)); [specialize (P4 eq_refl)|]; lia. }
  pose proof (network_new_spec (n_first n) (p + 1) (w_first n H)) as N1. fold (lo n) in N1.
  rewrite V, R in N1. destruct N1 as (s1 & -> & W1 & L1 & P1 & M1 & C1 & A1 & F1). cbn [bind].
  pose proof (blk_pos (S (n_prefix n))) as BP.
  destruct (lo_half n H Hp) as [q Eq].
  assert (L1' : lo s1 = lo n).
  { rewrite L1. unfold first_of. rewrite Eq. rewrite N.div_mul by lia. reflexivity. }
  clear L1. assert (H1 : hi s1 = lo n + (blk (S (n_prefix n)) - 1)) by now rewrite (hi_lo s1 W1), L1', P1.
  assert (Hhi : hi n = lo n + (2 * blk (S (n_prefix n)) - 1)) by (rewrite (hi_lo n H), (blk_S (n_prefix n)) by auto; auto).
  assert (NL : ~ is_last (hi s1)).
  { unfold is_last, low_part, low_bits. destruct (mappedb (hi s1)) eqn:M.
    - assert (mappedb (lo n) = true) as ML.
      { destruct (mappedb (lo n)) eqn:U; auto. exfalso. apply Hbad. left.
        apply split_hi_mapped; auto. now rewrite <- H1. }
      pose proof (split_mapped_4 n (hi n) H ML (inb_hi n H)) as MH.
      apply mappedb_range in MH, M. intros E.
      assert (hi s1 = 65535 * 2 ^ 32 + hi s1 mod 2 ^ 32).
      { pose proof (N.div_mod (hi s1) (2 ^ 32) ltac:(lia)).
        assert (hi s1 / 2 ^ 32 = 65535) by (apply mapped_range; lia). lia. }
      lia.
    - rewrite N.mod_small by (apply hi_bound; auto). pose proof (hi_bound n H). lia. }
  destruct (addr_increment_wf_val (n_last s1) (w_last s1 W1)) as [WI [_ VI]].
  fold (hi s1) in VI. specialize (VI NL).
  set (a2 := addr_increment (n_last s1)) in *.
  assert (V2 : val a2 = lo n + blk (S (n_prefix n))) by lia.
  assert (M2 : mappedb (val a2) = mappedb (lo n)).
  { rewrite V2. destruct (mappedb (lo n)) eqn:U.
    - apply (split_mapped_4 n); auto. unfold inb. lia.
    - destruct (mappedb (lo n + blk (S (n_prefix n)))) eqn:U2; auto. exfalso. apply Hbad. right.
      now apply split_mid_mapped. }
  pose proof (network_new_spec a2 (p + 1) WI) as N2.
  assert (LB : low_bits (val a2) = low_bits (lo n)) by (unfold low_bits; now rewrite M2).
  assert (R2 : raw_prefix (val a2) (p + 1) = S (n_prefix n)) by (rewrite <- R; unfold raw_prefix; now rewrite M2).
  rewrite LB, V, R2 in N2. destruct N2 as (s2 & -> & W2 & L2 & P2 & M2' & C2 & A2 & F2). cbn [bind].
  assert (L2' : lo s2 = lo n + blk (S (n_prefix n))).
  { rewrite L2, V2. unfold first_of. rewrite Eq.
    replace (q * 2 * blk (S (n_prefix n)) + blk (S (n_prefix n))) with ((q * 2 + 1) * blk (S (n_prefix n))) by lia.
    rewrite N.div_mul by lia. reflexivity. }
  destruct (copy_attributes_spec n s1 H W1 C1 A1 F1) as (c1 & -> & K1 & Q1 & _). cbn [bind].
  destruct (copy_attributes_spec n s2 H W2 C2 A2 F2) as (c2 & -> & K2 & Q2 & _). cbn [bind].
  eexists _, _. split; [reflexivity|].
  split; [apply net_wf_attrs; auto; apply H|].
  split; [apply net_wf_attrs; auto; apply H|].
  repeat split; cbn; auto.
  - rewrite (w_family s1 W1), (w_family n H). now rewrite L1'.
  - rewrite (w_family s2 W2), (w_family n H). now rewrite M2', M2.
Qed.

Lemma subnets_host n : net_wf n -> n_prefix n = 128%nat -> subnets n = Err 1.
Proof.
  intros H Hp. unfold subnets. rewrite network_prefix_val by auto.
  rewrite valid_prefix_iff by apply H. fold (lo n). rewrite Hp. unfold low_bits.
  now destruct (mappedb (lo n)).
Qed.

Lemma subnets_bad n : net_wf n -> split_bad n -> subnets n = Err 1.
Proof.
  intros H B. assert (E : n_first n = addr_of (lo n)) by (symmetry; apply addr_of_val, H).
  unfold subnets, network_prefix. rewrite (w_family n H), E.
  destruct B as [[-> ->]|[-> ->]]; vm_compute; reflexivity.
Qed.

(** merging *)
Lemma mod_mod_pow2 v e W : e <= W -> (v mod 2 ^ W) mod 2 ^ e = v mod 2 ^ e.
Proof.
  intros H. apply N.bits_inj. intro i. destruct (N.lt_ge_cases i e).
  - now rewrite !N.mod_pow2_bits_low by lia.
  - now rewrite !N.mod_pow2_bits_high by lia.
Qed.

Lemma mod_pow2_0_le v e f : e <= f -> v mod 2 ^ f = 0 -> v mod 2 ^ e = 0.
Proof. intros H E. rewrite mod_pow2_0 in *. intros i Hi. apply E. lia. Qed.

Lemma cc_cmp_0 c d : (cc_cmp c d =? 0)%Z = true <-> c = d.
Proof.
  destruct c as [a b], d as [a' b']. unfold cc_cmp.
  destruct (N.ltb_spec a a'), (N.ltb_spec a' a), (N.ltb_spec b b'), (N.ltb_spec b' b);
    cbn; split; intros E; try discriminate; try (injection E; intros; subst; lia);
    f_equal; lia.
Qed.

Definition same_attrs (n m : network) : Prop :=
  n_cc n = n_cc m /\ n_asn n = n_asn m /\ n_flags n = n_flags m.

Lemma properties_cmp_0 n m : (properties_cmp n m =? 0)%Z = true <-> same_attrs n m.
Proof.
  unfold properties_cmp, same_attrs. pose proof (cc_cmp_0 (n_cc n) (n_cc m)) as C.
  destruct (cc_cmp (n_cc n) (n_cc m) =? 0)%Z eqn:E; cbn [negb].
  - destruct (N.ltb_spec (n_asn m) (n_asn n)), (N.ltb_spec (n_asn n) (n_asn m)),
      (N.ltb_spec (n_flags m) (n_flags n)), (N.ltb_spec (n_flags n) (n_flags m)); cbn;
      split; intros; try discriminate; try lia. repeat split; try tauto; lia.
  - rewrite E. split; [discriminate|]. intros (H & _). apply C in H. discriminate.
Qed.

(** bit p - 1 of the first address is clear *)
Definition left_half (n : network) : Prop := lo n mod 2 ^ N.of_nat (129 - n_prefix n) = 0.

Lemma bitlength_prefix ctz0 n : net_wf n -> (0 < n_prefix n)%nat ->
  (network_prefix n <=? N.of_nat (addr_bit_length ctz0 (n_first n))) = false ->
  left_half n /\ (mappedb (lo n) = true -> (96 < n_prefix n)%nat).
Proof.
  intros H Hp0 E. apply N.leb_gt in E. unfold left_half.
  destruct (addr_bit_length_spec ctz0 (n_first n) (w_first n H)) as (B1 & B2 & _).
  fold (lo n) in *. rewrite network_prefix_val in E by auto. unfold low_part, low_bits in *.
  pose proof (w_prefix n H). pose proof (w_prefix4 n H) as P4.
  destruct (mappedb (lo n)).
  - specialize (P4 eq_refl). split; [|intros _; lia].
    rewrite mod_mod_pow2 in B2 by lia. revert B2. apply mod_pow2_0_le. lia.
  - split; [|discriminate]. rewrite mod_mod_pow2 in B2 by lia. revert B2. apply mod_pow2_0_le. lia.
Qed.

Lemma prefix_bitlength ctz0 n : (8 <= ctz0)%nat -> net_wf n -> (0 < n_prefix n)%nat ->
  (mappedb (lo n) = true -> (96 < n_prefix n)%nat) -> left_half n ->
  (network_prefix n <=? N.of_nat (addr_bit_length ctz0 (n_first n))) = false.
Proof.
  intros Hc H Hp0 Hp4 L. unfold left_half in L. apply N.leb_gt.
  destruct (N.lt_ge_cases (N.of_nat (addr_bit_length ctz0 (n_first n))) (network_prefix n)) as [|G]; auto.
  exfalso.
  destruct (addr_bit_length_spec ctz0 (n_first n) (w_first n H)) as (B1 & _ & B3).
  fold (lo n) in *. rewrite network_prefix_val in G by auto. unfold low_part, low_bits in *.
  pose proof (w_prefix n H).
  destruct (mappedb (lo n)).
  - specialize (Hp4 eq_refl). apply B3; auto; [clear -G Hp4; lia|]. rewrite mod_mod_pow2 by (clear -G Hp4; lia).
    revert L. apply mod_pow2_0_le. lia.
  - apply B3; auto; [clear -G Hp0; lia|]. rewrite mod_mod_pow2 by (clear -G Hp0; lia). revert L. apply mod_pow2_0_le. lia.
Qed.

Lemma family_eqb_iff n m : net_wf n -> net_wf m ->
  family_eqb (n_family n) (n_family m) = Bool.eqb (mappedb (lo n)) (mappedb (lo m)).
Proof.
  intros Hn Hm. rewrite (w_family n Hn), (w_family m Hm).
  now destruct (mappedb (lo n)), (mappedb (lo m)).
Qed.

Record halves (n1 n2 : network) : Prop := {
  h_family : n_family n1 = n_family n2;
  h_prefix : n_prefix n1 = n_prefix n2;
  h_pos : (0 < n_prefix n1)%nat;
  h_pos4 : mappedb (lo n1) = true -> (96 < n_prefix n1)%nat;
  h_left : left_half n1;
  h_next : lo n2 = lo n1 + blk (n_prefix n1);
  h_attrs : same_attrs n1 n2
}.

Definition merged (n1 m : network) : Prop :=
  net_wf m /\ S (n_prefix m) = n_prefix n1 /\ lo m = lo n1 /\ n_family m = n_family n1 /\ same_attrs m n1.

Lemma left_half_first n : net_wf n -> (0 < n_prefix n)%nat -> left_half n ->
  first_of (lo n) (n_prefix n - 1) = lo n.
Proof.
  intros H Hp L. unfold left_half in L. unfold first_of, blk. pose proof (w_prefix n H).
  replace (128 - (n_prefix n - 1))%nat with (129 - n_prefix n)%nat by lia.
  pose proof (N.div_mod (lo n) (2 ^ N.of_nat (129 - n_prefix n)) ltac:(apply N.pow_nonzero; lia)). lia.
Qed.

Lemma merge_new n1 : net_wf n1 -> (0 < n_prefix n1)%nat -> left_half n1 ->
  (mappedb (lo n1) = true -> (96 < n_prefix n1)%nat) ->
  exists m, network_new (n_first n1) ((network_prefix n1 + (2 ^ 32 - 1)) mod 2 ^ 32) = Ok m /\
  merged n1 (with_flags (with_asn (with_cc m (n_cc n1)) (n_asn n1)) (n_flags n1)).
Proof.
  intros H Hp L H4. pose proof (w_prefix n1 H).
  set (p := if mappedb (lo n1) then N.of_nat (n_prefix n1 - 97) else N.of_nat (n_prefix n1 - 1)).
  assert (E : (network_prefix n1 + (2 ^ 32 - 1)) mod 2 ^ 32 = p).
  { rewrite network_prefix_val by auto. subst p. destruct (mappedb (lo n1)).
    - specialize (H4 eq_refl).
      replace (N.of_nat (n_prefix n1 - 96) + (2 ^ 32 - 1)) with (N.of_nat (n_prefix n1 - 97) + 1 * 2 ^ 32) by lia.
      rewrite N.mod_add by lia. apply N.mod_small. lia.
    - replace (N.of_nat (n_prefix n1) + (2 ^ 32 - 1)) with (N.of_nat (n_prefix n1 - 1) + 1 * 2 ^ 32) by lia.
      rewrite N.mod_add by lia. apply N.mod_small. lia. }
  rewrite E. pose proof (network_new_spec (n_first n1) p (w_first n1 H)) as Nn. fold (lo n1) in Nn.
  assert (V : p <=? low_bits (lo n1) = true) by (subst p; unfold low_bits; destruct (mappedb (lo n1)); lia).
  assert (R : raw_prefix (lo n1) p = (n_prefix n1 - 1)%nat).
  { subst p. unfold raw_prefix. destruct (mappedb (lo n1)); [specialize (H4 eq_refl)|]; lia. }
  rewrite V, R in Nn. destruct Nn as (m & -> & W & Lm & Pm & Mm & _). exists m. split; auto.
  rewrite left_half_first in Lm by auto.
  split; [apply net_wf_attrs; auto; apply H|]. cbn. repeat split; auto; try lia.
  rewrite (w_family m W), (w_family n1 H), Lm. reflexivity.
Qed.

Lemma network_merge_sound ctz0 n1 n2 : net_wf n1 -> net_wf n2 ->
  network_merge ctz0 n1 n2 = Ok None \/
  (halves n1 n2 /\ exists m, network_merge ctz0 n1 n2 = Ok (Some m) /\ merged n1 m).
Proof.
  intros H1 H2. unfold network_merge.
  destruct (family_eqb (n_family n1) (n_family n2)) eqn:F; cbn [negb]; auto.
  destruct (Nat.eqb_spec (n_prefix n1) (n_prefix n2)) as [P|P]; cbn [negb]; auto.
  destruct (Nat.eqb_spec (n_prefix n1) 0) as [Z1|Z1]; cbn [orb]; auto.
  destruct (Nat.eqb_spec (n_prefix n2) 0) as [Z2|Z2]; cbn [orb]; auto.
  destruct (network_prefix n1 <=? N.of_nat (addr_bit_length ctz0 (n_first n1))) eqn:B; auto.
  apply bitlength_prefix in B as [L L4]; auto; [|lia].
  destruct (addr_increment_wf_val (n_last n1) (w_last n1 H1)) as [WI [I1 I2]].
  fold (hi n1) in *.
  destruct (addr_cmp (addr_increment (n_last n1)) (n_first n2) =? 0)%Z eqn:C; cbn [negb]; auto.
  apply Z.eqb_eq, addr_cmp_eq in C; auto; [|apply H2]. fold (lo n2) in C.
  destruct (properties_cmp n1 n2 =? 0)%Z eqn:A; cbn [negb]; auto.
  apply properties_cmp_0 in A.
  right. destruct (merge_new n1 H1 ltac:(lia) L L4) as (m & -> & M). cbn [bind].
  split; [|eexists; split; [reflexivity|auto]].
  constructor; auto; try lia.
  - now destruct (n_family n1), (n_family n2).
  - destruct (N.eq_dec (low_part (hi n1)) (2 ^ low_bits (hi n1) - 1)) as [E|E].
    + exfalso. rewrite I1 in C by exact E.
      (* the last address of n1 is the first of n2: single address *)
      pose proof (hi_lo n1 H1) as Hh. pose proof (lo_div n1 H1) as D1. pose proof (lo_div n2 H2) as D2.
      rewrite <- P in D2. set (b := blk (n_prefix n1)) in *.
      assert (b = 1) as B1.
      { pose proof (blk_pos (n_prefix n1)). fold b in H. rewrite C, D1, D2 in Hh.
        set (q1 := lo n1 / b) in *. set (q2 := lo n2 / b) in *.
        clear -H Hh. destruct (N.lt_trichotomy q1 q2) as [G|[G|G]].
        - assert ((q1 + 1) * b <= q2 * b) by (apply N.mul_le_mono_r; lia). lia.
        - rewrite G in Hh. lia.
        - assert ((q2 + 1) * b <= q1 * b) by (apply N.mul_le_mono_r; lia). lia. }
      assert (hi n1 = lo n1) as HL by lia. rewrite HL in E.
      assert (lo n1 mod 2 ^ 1 = 0) as EV.
      { unfold left_half in L. revert L. apply mod_pow2_0_le. pose proof (w_prefix n1 H1). lia. }
      unfold low_part in E.
      assert ((lo n1 mod 2 ^ low_bits (lo n1)) mod 2 ^ 1 = 0) as EV2.
      { rewrite mod_mod_pow2; auto. unfold low_bits. destruct (mappedb (lo n1)); lia. }
      rewrite E in EV2. unfold low_bits in EV2. destruct (mappedb (lo n1)); vm_compute in EV2; discriminate.
    + rewrite I2 in C by exact E. rewrite <- C, (hi_lo n1 H1).
      pose proof (blk_pos (n_prefix n1)). lia.
Qed.

Lemma network_merge_complete ctz0 n1 n2 : (8 <= ctz0)%nat -> net_wf n1 -> net_wf n2 ->
  halves n1 n2 -> ~ (lo n1 = 0 /\ n_prefix n1 = 80%nat) ->
  exists m, network_merge ctz0 n1 n2 = Ok (Some m) /\ merged n1 m.
Proof.
  intros Hc H1 H2 Hh Hx. unfold network_merge. destruct Hh as [HF HP H0 H4 HL HN HA].
  replace (family_eqb (n_family n1) (n_family n2)) with true by (rewrite HF; now destruct (n_family n2)).
  replace (n_prefix n1 =? n_prefix n2)%nat with true by lia. cbn [negb].
  replace (n_prefix n1 =? 0)%nat with false by lia.
  replace (n_prefix n2 =? 0)%nat with false by lia. cbn [orb].
  rewrite prefix_bitlength by auto.
  destruct (addr_increment_wf_val (n_last n1) (w_last n1 H1)) as [WI [_ I2]].
  fold (hi n1) in *. pose proof (blk_pos (n_prefix n1)) as BP.
  assert (NL : ~ is_last (hi n1)).
  { pose proof (hi_lo n1 H1) as Hh. pose proof (lo_bound n2 H2) as B2.
    unfold is_last, low_part, low_bits. destruct (mappedb (hi n1)) eqn:M.
    - destruct (mappedb (lo n1)) eqn:U.
      + assert (M2 : mappedb (lo n2) = true).
        { rewrite (w_family n1 H1), (w_family n2 H2), U in HF. now destruct (mappedb (lo n2)). }
        apply mappedb_range in M2, M. intros E.
        assert (hi n1 = 65535 * 2 ^ 32 + hi n1 mod 2 ^ 32).
        { pose proof (N.div_mod (hi n1) (2 ^ 32) ltac:(lia)).
          assert (hi n1 / 2 ^ 32 = 65535) by (apply mapped_range; lia). lia. }
        lia.
      + exfalso. apply Hx.
        (* n1 is the first half of a network with prefix p - 1 *)
        destruct (merge_new n1 H1 H0 HL ltac:(congruence)) as (m & _ & Wm & Pm & Lm & _).
        set (m' := with_flags _ _) in *.
        destruct (split_hi_mapped m' Wm) as [S1 S2].
        * pose proof (w_prefix n1 H1). lia.
        * now rewrite Lm.
        * rewrite Lm, Pm. now rewrite <- Hh.
        * split; [congruence|lia].
    - rewrite N.mod_small by (apply hi_bound; auto). lia. }
  specialize (I2 NL).
  assert (val (addr_increment (n_last n1)) = lo n2) as C by (pose proof (hi_lo n1 H1); lia).
  replace (addr_cmp (addr_increment (n_last n1)) (n_first n2) =? 0)%Z with true.
  2:{ symmetry. apply Z.eqb_eq, addr_cmp_eq; auto. apply H2. }
  cbn [negb]. apply properties_cmp_0 in HA. rewrite HA. cbn [negb].
  destruct (merge_new n1 H1 H0 HL H4) as (m & -> & M). cbn [bind]. eauto.
Qed.
