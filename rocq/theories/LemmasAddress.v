(** Lemmas about the address model: every operation against the 128-bit number
    [val]. *)
From Coq Require Import NArith ZArith List Bool Arith Lia ZifyBool ZifyNat ZifyN.
From Verif Require Import Base LemmasBase ModelAddress.
Import ListNotations.
Open Scope N_scope.

Definition wf (a : addr) : Prop := length a = 16%nat /\ octets a.
Definition val (a : addr) : N := be a.

Lemma wf_oct a i : wf a -> oct a i < 256.
Proof. intros [_ H]. now apply octets_nth. Qed.

Lemma wf_upd a i v : wf a -> v < 256 -> wf (upd a i v).
Proof. intros [H1 H2] Hv. split; [now rewrite upd_length|now apply octets_upd]. Qed.

Lemma val_bound a : wf a -> val a < 2 ^ 128.
Proof. intros [H1 H2]. pose proof (be_bound a H2) as H. now rewrite H1 in H. Qed.

Lemma val_inj a b : wf a -> wf b -> val a = val b -> a = b.
Proof. intros [L1 O1] [L2 O2] E. apply be_inj; auto; congruence. Qed.

Lemma oct_upd_eq a i v : wf a -> (i < 16)%nat -> oct (upd a i v) i = v.
Proof. intros [H _] Hi. apply nth_upd_eq. lia. Qed.

Lemma oct_upd_neq a i j v : i <> j -> oct (upd a i v) j = oct a j.
Proof. intros. now apply nth_upd_neq. Qed.

Lemma val_upd a i v : wf a -> (i < 16)%nat ->
  val (upd a i v) + oct a i * 256 ^ N.of_nat (15 - i) = val a + v * 256 ^ N.of_nat (15 - i).
Proof.
  intros [H _] Hi. pose proof (be_upd a i v ltac:(lia)) as E. rewrite H in E.
  exact E.
Qed.

(** the number of an address from octets *)
Definition addr_of (v : N) : addr := to_be 16 v.

Lemma addr_of_wf v : wf (addr_of v).
Proof. split; [apply to_be_length|apply to_be_octets]. Qed.

Lemma val_addr_of v : v < 2 ^ 128 -> val (addr_of v) = v.
Proof. intros. now apply be_to_be. Qed.

Lemma addr_of_val a : wf a -> addr_of (val a) = a.
Proof. intros [H1 H2]. unfold addr_of, val. rewrite <- H1. now apply to_be_be. Qed.

(** splitting *)
Lemma skipn_oct a i : (i < length a)%nat -> skipn i a = oct a i :: skipn (S i) a.
Proof.
  unfold oct. revert i; induction a; intros [|i] H; cbn [length] in *; try lia; auto.
  cbn [skipn nth]. rewrite IHa by lia. auto.
Qed.

Lemma octets_skipn l k : octets l -> octets (skipn k l).
Proof. intros H. rewrite <- (firstn_skipn k l) in H. now apply octets_app in H. Qed.

Lemma octets_firstn l k : octets l -> octets (firstn k l).
Proof. intros H. rewrite <- (firstn_skipn k l) in H. now apply octets_app in H. Qed.

Lemma val_split a k : wf a -> (k <= 16)%nat ->
  val a = be (firstn k a) * 256 ^ N.of_nat (16 - k) + be (skipn k a).
Proof.
  intros [H1 _] Hk. unfold val. rewrite <- (firstn_skipn k a) at 1.
  rewrite be_app, skipn_length, H1. reflexivity.
Qed.

Lemma be_skipn_bound a k : wf a -> (k <= 16)%nat -> be (skipn k a) < 256 ^ N.of_nat (16 - k).
Proof.
  intros [H1 H2] Hk. pose proof (be_bound (skipn k a) (octets_skipn a k H2)) as B.
  now rewrite skipn_length, H1 in B.
Qed.

Lemma be_skipn_mod a k : wf a -> (k <= 16)%nat -> be (skipn k a) = val a mod 256 ^ N.of_nat (16 - k).
Proof.
  intros H Hk. rewrite (val_split a k H Hk), N.add_comm, N.mod_add
    by (pose proof (pow256_pos (16 - k)); lia).
  now rewrite N.mod_small by now apply be_skipn_bound.
Qed.

Lemma be_firstn_div a k : wf a -> (k <= 16)%nat -> be (firstn k a) = val a / 256 ^ N.of_nat (16 - k).
Proof.
  intros H Hk. rewrite (val_split a k H Hk).
  rewrite N.div_add_l by (pose proof (pow256_pos (16 - k)); lia).
  rewrite N.div_small by now apply be_skipn_bound. lia.
Qed.

(** IPv4-mapped addresses *)
Definition mapped (v : N) : Prop := v / 2 ^ 32 = 65535.

Lemma forallb_seq_eq (f : nat -> bool) s n :
  forallb f (seq s n) = true <-> (forall i, (s <= i < s + n)%nat -> f i = true).
Proof.
  rewrite forallb_forall. split; intros H i Hi; apply H.
  - apply in_seq. lia.
  - apply in_seq in Hi. lia.
Qed.

Lemma v4mapped_firstn a : wf a -> v4mapped a = true <-> firstn 12 a = repeat 0 10 ++ [255; 255].
Proof.
  intros [H _]. unfold v4mapped.
  do 16 (destruct a as [|? a]; [discriminate|]).
  cbn [firstn repeat app oct nth forallb seq].
  rewrite !andb_true_iff, !N.eqb_eq. split.
  - intros [[Hz Ha] Hb]. decompose [and] Hz. repeat (f_equal; auto).
  - intros E. injection E; intros; subst. repeat split.
Qed.

Lemma v4mapped_iff a : wf a -> v4mapped a = true <-> mapped (val a).
Proof.
  intros H. rewrite (v4mapped_firstn a H). unfold mapped.
  change (2 ^ 32) with (256 ^ N.of_nat (16 - 12)).
  rewrite <- (be_firstn_div a 12 H) by lia. split.
  - intros ->. reflexivity.
  - intros E. apply be_inj.
    + apply octets_firstn, H.
    + repeat constructor.
    + rewrite firstn_length. destruct H as [-> _]. reflexivity.
    + rewrite E. reflexivity.
Qed.

Lemma v4mapped_false_iff a : wf a -> v4mapped a = false <-> ~ mapped (val a).
Proof.
  intros H. rewrite <- (v4mapped_iff a H). destruct (v4mapped a); split; congruence.
Qed.

Definition mappedb (v : N) : bool := v / 2 ^ 32 =? 65535.
Lemma v4mapped_val a : wf a -> v4mapped a = mappedb (val a).
Proof.
  intros H. pose proof (v4mapped_iff a H). unfold mapped, mappedb in *.
  destruct (v4mapped a), (N.eqb_spec (val a / 2 ^ 32) 65535); intuition congruence.
Qed.

Lemma v4mapped_hi a b : (forall i, (i < 12)%nat -> oct a i = oct b i) -> v4mapped a = v4mapped b.
Proof.
  intros H. unfold v4mapped. rewrite (H 10%nat), (H 11%nat) by lia. f_equal. f_equal.
  cbn [forallb seq]. now rewrite !H by lia.
Qed.

(** comparison *)
Definition cmp_code (c : comparison) : Z := match c with Lt => -1 | Eq => 0 | Gt => 1 end%Z.

Lemma addr_cmp_loop_spec a b : wf a -> wf b -> forall fuel i, (i + fuel = 16)%nat ->
  addr_cmp_loop a b i fuel = cmp_code (be (skipn i a) ?= be (skipn i b)).
Proof.
  intros Ha Hb. induction fuel; intros i Hi.
  - replace i with 16%nat by lia. rewrite !skipn_all2 by (destruct Ha, Hb; lia). reflexivity.
  - cbn [addr_cmp_loop]. rewrite IHfuel by lia.
    rewrite (skipn_oct a i), (skipn_oct b i) by (destruct Ha, Hb; lia).
    cbn [be]. rewrite !skipn_length. destruct Ha as [La Oa], Hb as [Lb Ob]. rewrite La, Lb.
    pose proof (be_bound _ (octets_skipn a (S i) Oa)) as Ba.
    pose proof (be_bound _ (octets_skipn b (S i) Ob)) as Bb.
    rewrite !skipn_length, ?La, ?Lb in *. set (P := 256 ^ N.of_nat (16 - S i)) in *.
    destruct (N.ltb_spec (oct b i) (oct a i)).
    + destruct (N.compare_spec (oct a i * P + be (skipn (S i) a)) (oct b i * P + be (skipn (S i) b)));
        cbn; try reflexivity; exfalso; nia.
    + destruct (N.ltb_spec (oct a i) (oct b i)).
      * destruct (N.compare_spec (oct a i * P + be (skipn (S i) a)) (oct b i * P + be (skipn (S i) b)));
          cbn; try reflexivity; exfalso; nia.
      * assert (oct a i = oct b i) as -> by lia.
        f_equal. destruct (N.compare_spec (be (skipn (S i) a)) (be (skipn (S i) b)));
        symmetry; [apply N.compare_eq_iff|apply N.compare_lt_iff|apply N.compare_gt_iff]; lia.
Qed.

Lemma addr_cmp_spec a b : wf a -> wf b -> addr_cmp a b = cmp_code (val a ?= val b).
Proof. intros Ha Hb. unfold addr_cmp. now rewrite (addr_cmp_loop_spec a b Ha Hb 16 0). Qed.

Lemma addr_cmp_gt a b : wf a -> wf b -> (0 < addr_cmp a b)%Z <-> val b < val a.
Proof.
  intros Ha Hb. rewrite addr_cmp_spec by auto.
  destruct (N.compare_spec (val a) (val b)); cbn; lia.
Qed.
Lemma addr_cmp_lt a b : wf a -> wf b -> (addr_cmp a b < 0)%Z <-> val a < val b.
Proof.
  intros Ha Hb. rewrite addr_cmp_spec by auto.
  destruct (N.compare_spec (val a) (val b)); cbn; lia.
Qed.
Lemma addr_cmp_eq a b : wf a -> wf b -> (addr_cmp a b = 0)%Z <-> val a = val b.
Proof.
  intros Ha Hb. rewrite addr_cmp_spec by auto.
  destruct (N.compare_spec (val a) (val b)); cbn; lia.
Qed.

(** bits *)
Lemma addr_get_bit_spec a i : wf a -> (i < 128)%nat ->
  addr_get_bit a i = N.b2n (N.testbit (val a) (N.of_nat (127 - i))).
Proof.
  intros [H1 H2] Hi. unfold addr_get_bit.
  pose proof (be_testbit a i H2 ltac:(lia)) as E.
  rewrite H1 in E. replace (8 * 16 - 1 - i)%nat with (127 - i)%nat in E by lia.
  unfold val. rewrite E. unfold oct.
  change 1 with (N.ones 1) at 1. rewrite N.land_ones. change (2 ^ 1) with 2.
  now rewrite N.testbit_spec' , N.shiftr_div_pow2.
Qed.

Lemma val_testbit_high a k : wf a -> 128 <= k -> N.testbit (val a) k = false.
Proof.
  intros H Hk. pose proof (val_bound a H). destruct (N.eq_dec (val a) 0) as [->|Hn].
  - apply N.bits_0.
  - apply N.bits_above_log2. assert (N.log2 (val a) < 128) by (apply N.log2_lt_pow2; lia). lia.
Qed.

Lemma addr_ext a b : wf a -> wf b ->
  (forall i, (i < 128)%nat -> addr_get_bit a i = addr_get_bit b i) -> a = b.
Proof.
  intros Ha Hb H. apply val_inj; auto. apply N.bits_inj. intro k.
  destruct (N.lt_ge_cases k 128).
  - specialize (H (127 - N.to_nat k)%nat ltac:(lia)).
    rewrite !addr_get_bit_spec in H by (auto; lia).
    replace (N.of_nat (127 - (127 - N.to_nat k))) with k in H by lia.
    now apply N.b2n_inj.
  - now rewrite !val_testbit_high by auto.
Qed.

Lemma octet_bits_inj x y : x < 256 -> y < 256 ->
  (forall k, k < 8 -> N.testbit x k = N.testbit y k) -> x = y.
Proof.
  intros Hx Hy H. apply N.bits_inj. intro k. destruct (N.lt_ge_cases k 8); auto.
  assert (B : forall z, z < 256 -> N.testbit z k = false).
  { intros z Hz. destruct (N.eq_dec z 0) as [->|Hn]; [apply N.bits_0|].
    apply N.bits_above_log2. assert (N.log2 z < 8) by (apply N.log2_lt_pow2; cbn; lia). lia. }
  now rewrite !B.
Qed.

Lemma setbit_octet x j v : x < 256 -> (j < 8)%nat -> v < 2 ->
  forall k, k < 8 ->
  N.testbit (N.lxor x (N.land (N.lxor (neg32 v) x) (N.shiftl 1 (N.of_nat j))) mod 256) k
  = if k =? N.of_nat j then v =? 1 else N.testbit x k.
Proof.
  intros Hx Hj Hv k Hk.
  change 256 with (2 ^ 8). rewrite N.mod_pow2_bits_low by lia.
  rewrite N.lxor_spec, N.land_spec, N.lxor_spec, N.shiftl_1_l, N.pow2_bits_eqb.
  rewrite (N.eqb_sym (N.of_nat j) k).
  destruct (N.eqb_spec k (N.of_nat j)).
  - assert (v = 0 \/ v = 1) as [->| ->] by lia; cbn [N.eqb].
    + change (neg32 0) with 0. rewrite N.bits_0. now destruct (N.testbit x k).
    + change (neg32 1) with (N.ones 32). rewrite N.ones_spec_low by lia.
      now destruct (N.testbit x k).
  - now rewrite andb_false_r, xorb_false_r.
Qed.

Lemma addr_set_bit_wf a i v : wf a -> wf (addr_set_bit a i v).
Proof. intros H. apply wf_upd; auto. apply N.mod_lt. lia. Qed.

Lemma addr_set_bit_get a i v j : wf a -> (i < 128)%nat -> (j < 128)%nat -> v < 2 ->
  addr_get_bit (addr_set_bit a i v) j = if (j =? i)%nat then v else addr_get_bit a j.
Proof.
  intros H Hi Hj Hv. unfold addr_get_bit, addr_set_bit.
  assert (Hi8 : (i / 8 < 16)%nat) by (apply Nat.div_lt_upper_bound; lia).
  assert (Hb : forall x m, N.land (N.shiftr x m) 1 = N.b2n (N.testbit x m)).
  { intros. change 1 with (N.ones 1) at 1. rewrite N.land_ones, N.testbit_spec', N.shiftr_div_pow2.
    reflexivity. }
  rewrite !Hb.
  pose proof (Nat.mod_upper_bound i 8 ltac:(lia)). pose proof (Nat.mod_upper_bound j 8 ltac:(lia)).
  pose proof (Nat.div_mod_eq i 8). pose proof (Nat.div_mod_eq j 8).
  destruct (Nat.eq_dec (j / 8) (i / 8)) as [E|E].
  - rewrite E, oct_upd_eq by auto. rewrite setbit_octet by (auto using wf_oct; lia).
    destruct (Nat.eqb_spec j i) as [->|].
    + rewrite N.eqb_refl. assert (v = 0 \/ v = 1) as [->| ->] by lia; reflexivity.
    + destruct (N.eqb_spec (N.of_nat (7 - j mod 8)) (N.of_nat (7 - i mod 8))); auto. lia.
  - rewrite oct_upd_neq by auto. destruct (Nat.eqb_spec j i); auto. subst; lia.
Qed.

(** bitmasks: all 129 prefixes, by evaluation *)
Lemma prefix_to_bitmask_spec p : (p <= 128)%nat ->
  prefix_to_bitmask p = addr_of (2 ^ 128 - 2 ^ N.of_nat (128 - p)).
Proof.
  intros Hp.
  assert (E : forallb (fun p => if list_eq_dec N.eq_dec (prefix_to_bitmask p)
     (addr_of (2 ^ 128 - 2 ^ N.of_nat (128 - p))) then true else false) (seq 0 129) = true)
    by (vm_compute; reflexivity).
  rewrite forallb_forall in E. specialize (E p ltac:(apply in_seq; lia)).
  destruct (list_eq_dec N.eq_dec _ _); auto. discriminate.
Qed.

Lemma mask_ones k n : (k <= n)%nat ->
  2 ^ N.of_nat n - 2 ^ N.of_nat k = N.shiftl (N.ones (N.of_nat (n - k))) (N.of_nat k).
Proof.
  intros H. rewrite N.shiftl_mul_pow2, N.ones_equiv, <- N.sub_1_r, N.mul_sub_distr_r.
  rewrite <- N.pow_add_r, N.mul_1_l. do 2 f_equal. lia.
Qed.

Lemma mask_testbit p k : (p <= 128)%nat ->
  N.testbit (2 ^ 128 - 2 ^ N.of_nat (128 - p)) k = (N.of_nat (128 - p) <=? k) && (k <? 128).
Proof.
  intros Hp. change 128 with (N.of_nat 128) at 1. rewrite mask_ones by lia.
  destruct (N.leb_spec (N.of_nat (128 - p)) k).
  - rewrite N.shiftl_spec_high' by lia. cbn [andb].
    destruct (N.ltb_spec k 128).
    + apply N.ones_spec_low. lia.
    + apply N.ones_spec_high. lia.
  - now rewrite N.shiftl_spec_low by lia.
Qed.

Lemma map2_length f l1 l2 : length l1 = length l2 -> length (map2 f l1 l2) = length l1.
Proof. revert l2; induction l1; intros [|y l2] H; cbn in *; try lia. now rewrite IHl1 by lia. Qed.

Lemma map2_nth f l1 l2 i : length l1 = length l2 -> (i < length l1)%nat ->
  nth i (map2 f l1 l2) 0 = f (nth i l1 0) (nth i l2 0).
Proof.
  revert l2 i; induction l1; intros [|y l2] i H Hi; cbn [length] in *; try lia.
  destruct i; cbn; auto. apply IHl1; lia.
Qed.

Lemma map2_octets f l1 l2 : (forall x y, x < 256 -> y < 256 -> f x y < 256) ->
  octets l1 -> octets l2 -> octets (map2 f l1 l2).
Proof.
  intros Hf H1; revert l2. induction H1; intros l2 H2; cbn; [constructor|].
  destruct H2; constructor; auto. apply Hf; auto. apply IHForall. auto.
Qed.

Lemma wf_map2 f a b : (forall x y, x < 256 -> y < 256 -> f x y < 256) -> wf a -> wf b -> wf (map2 f a b).
Proof.
  intros Hf [L1 O1] [L2 O2]. split.
  - rewrite map2_length; congruence.
  - now apply map2_octets.
Qed.

Lemma lt_pow2_log2 x n : x < 2 ^ n <-> (forall k, n <= k -> N.testbit x k = false).
Proof.
  split.
  - intros H k Hk. destruct (N.eq_dec x 0) as [->|Hn]; [apply N.bits_0|].
    apply N.bits_above_log2. assert (N.log2 x < n) by (apply N.log2_lt_pow2; lia). lia.
  - intros H. destruct (N.eq_dec x 0) as [->|Hn]; [apply N.neq_0_lt_0, N.pow_nonzero; lia|].
    apply N.log2_lt_pow2; [lia|]. destruct (N.lt_ge_cases (N.log2 x) n); auto.
    specialize (H _ H0). rewrite N.bit_log2 in H by auto. discriminate.
Qed.

Lemma land_lt_256 x y : x < 256 -> y < 256 -> N.land x y < 256.
Proof.
  intros Hx Hy. change 256 with (2 ^ 8) in *. apply lt_pow2_log2. intros k Hk.
  rewrite N.land_spec. rewrite lt_pow2_log2 in Hx. now rewrite Hx.
Qed.

Lemma orn_lt_256 x y : x < 256 -> y < 256 -> N.lor x (N.lxor y 255) < 256.
Proof.
  intros Hx Hy. change 256 with (2 ^ 8) in *. apply lt_pow2_log2. intros k Hk.
  rewrite N.lor_spec, N.lxor_spec. rewrite lt_pow2_log2 in Hx, Hy. rewrite Hx, Hy by auto.
  change 255 with (N.ones 8). now rewrite N.ones_spec_high.
Qed.

Lemma map2_testbit f g a b : wf a -> wf b ->
  (forall x y, x < 256 -> y < 256 -> f x y < 256) ->
  (forall x y k, k < 8 -> N.testbit (f x y) k = g (N.testbit x k) (N.testbit y k)) ->
  forall k, k < 128 -> N.testbit (val (map2 f a b)) k = g (N.testbit (val a) k) (N.testbit (val b) k).
Proof.
  intros Ha Hb Hf Hg k Hk.
  pose proof (wf_map2 f a b Hf Ha Hb) as Hm.
  assert (B : forall c, wf c -> N.testbit (val c) k
    = N.testbit (oct c ((127 - N.to_nat k) / 8)) (N.of_nat (7 - (127 - N.to_nat k) mod 8))).
  { intros c [H1 H2]. pose proof (be_testbit c (127 - N.to_nat k) H2 ltac:(lia)) as E.
    rewrite H1 in E. replace (N.of_nat (8 * 16 - 1 - (127 - N.to_nat k))) with k in E by lia.
    exact E. }
  rewrite !B by auto. unfold oct at 1.
  assert (((127 - N.to_nat k) / 8 < 16)%nat) by (apply Nat.div_lt_upper_bound; lia).
  destruct Ha as [Ha _], Hb as [Hb _]. rewrite map2_nth by lia.
  rewrite Hg by lia. reflexivity.
Qed.

(** first and last address of the block of [v] with prefix [p] *)
Definition blk (p : nat) : N := 2 ^ N.of_nat (128 - p).
Definition first_of (v : N) (p : nat) : N := v / blk p * blk p.
Definition last_of (v : N) (p : nat) : N := v / blk p * blk p + (blk p - 1).

Lemma blk_pos p : 0 < blk p.
Proof. apply N.neq_0_lt_0, N.pow_nonzero; lia. Qed.

Lemma first_of_testbit v p k : N.testbit (first_of v p) k = N.testbit v k && (N.of_nat (128 - p) <=? k).
Proof.
  unfold first_of, blk. rewrite <- N.shiftl_mul_pow2, <- N.shiftr_div_pow2, <- N.ldiff_ones_r.
  rewrite N.ldiff_spec. f_equal. destruct (N.leb_spec (N.of_nat (128 - p)) k).
  - now rewrite N.ones_spec_high.
  - now rewrite N.ones_spec_low.
Qed.

Lemma last_of_lor v p : last_of v p = N.lor (first_of v p) (N.ones (N.of_nat (128 - p))).
Proof.
  unfold last_of. fold (first_of v p).
  replace (blk p - 1) with (N.ones (N.of_nat (128 - p))) by (rewrite N.ones_equiv; unfold blk; lia).
  rewrite <- N.lxor_lor, N.add_nocarry_lxor; auto;
  apply N.bits_inj; intro k; rewrite N.land_spec, first_of_testbit, N.bits_0;
  (destruct (N.leb_spec (N.of_nat (128 - p)) k); [rewrite N.ones_spec_high by lia|]);
  now rewrite ?andb_false_r.
Qed.

Lemma addr_and_spec a p : wf a -> (p <= 128)%nat ->
  wf (addr_and a (prefix_to_bitmask p)) /\
  val (addr_and a (prefix_to_bitmask p)) = first_of (val a) p.
Proof.
  intros H Hp. rewrite prefix_to_bitmask_spec by auto.
  assert (W : wf (addr_and a (addr_of (2 ^ 128 - 2 ^ N.of_nat (128 - p))))).
  { apply wf_map2; auto using land_lt_256, addr_of_wf. }
  split; auto. apply N.bits_inj. intro k. rewrite first_of_testbit.
  destruct (N.lt_ge_cases k 128).
  - unfold addr_and. rewrite (map2_testbit N.land andb); auto using land_lt_256, addr_of_wf.
    + rewrite val_addr_of by lia. rewrite mask_testbit by auto.
      f_equal. replace (k <? 128) with true by lia. now rewrite andb_true_r.
    + intros. apply N.land_spec.
  - rewrite val_testbit_high by auto. now rewrite val_testbit_high by auto.
Qed.

Lemma addr_or_spec a p : wf a -> (p <= 128)%nat -> val a = first_of (val a) p ->
  wf (addr_or a (prefix_to_bitmask p)) /\
  val (addr_or a (prefix_to_bitmask p)) = last_of (val a) p.
Proof.
  intros H Hp Hf. rewrite prefix_to_bitmask_spec by auto.
  assert (W : wf (addr_or a (addr_of (2 ^ 128 - 2 ^ N.of_nat (128 - p))))).
  { apply wf_map2; auto using orn_lt_256, addr_of_wf. }
  split; auto. apply N.bits_inj. intro k. rewrite last_of_lor, N.lor_spec, <- Hf.
  destruct (N.lt_ge_cases k 128).
  - unfold addr_or. rewrite (map2_testbit _ (fun x y => x || negb y)); auto using orn_lt_256, addr_of_wf.
    + rewrite val_addr_of by lia. rewrite mask_testbit by auto. f_equal.
      replace (k <? 128) with true by lia. rewrite andb_true_r.
      destruct (N.leb_spec (N.of_nat (128 - p)) k); cbn [negb].
      * now rewrite N.ones_spec_high.
      * now rewrite N.ones_spec_low.
    + intros. rewrite N.lor_spec, N.lxor_spec. f_equal. change 255 with (N.ones 8).
      rewrite N.ones_spec_low by auto. now destruct (N.testbit y k0).
  - rewrite !val_testbit_high by auto. rewrite N.ones_spec_high by lia. auto.
Qed.

(** all ones, all zeroes *)
Lemma pow256_nat n : 256 ^ N.of_nat n = 2 ^ N.of_nat (8 * n).
Proof. rewrite pow256_pow2. f_equal. lia. Qed.

Lemma be_repeat x n : be (repeat x n) = x * ((256 ^ N.of_nat n - 1) / 255).
Proof.
  induction n; [cbn; lia|]. cbn [repeat be]. rewrite IHn, repeat_length, pow256_S.
  pose proof (pow256_pos n).
  replace (256 * 256 ^ N.of_nat n - 1) with (256 ^ N.of_nat n * 255 + (256 ^ N.of_nat n - 1)) by lia.
  rewrite N.div_add_l by lia. lia.
Qed.

Lemma nth_skipn' {A} (l : list A) k i d : nth i (skipn k l) d = nth (k + i) l d.
Proof. revert k; induction l; intros [|k]; cbn; auto. now destruct i. Qed.

Lemma skipn_skipn' {A} (x y : nat) (l : list A) : skipn x (skipn y l) = skipn (x + y) l.
Proof.
  revert l; induction y; intros l; [now rewrite Nat.add_0_r|].
  rewrite Nat.add_succ_r. destruct l; cbn; auto. now rewrite skipn_nil.
Qed.

Lemma nth_firstn_lt' {A} (l : list A) k i d : (i < k)%nat -> nth i (firstn k l) d = nth i l d.
Proof. revert k i; induction l; intros [|k] [|i] H; cbn; try lia; auto. apply IHl. lia. Qed.

Lemma nth_repeat_lt' {A} (x d : A) n i : (i < n)%nat -> nth i (repeat x n) d = x.
Proof. revert i; induction n; intros [|i] H; cbn; try lia; auto. apply IHn. lia. Qed.

Lemma skipn_all_eq a k x : wf a -> (k <= 16)%nat ->
  (forall i, (k <= i < 16)%nat -> oct a i = x) <-> skipn k a = repeat x (16 - k).
Proof.
  intros [H _] Hk. split.
  - intros E. apply nth_ext with (d := 0) (d' := 0).
    + now rewrite skipn_length, repeat_length, H.
    + intros i Hi. rewrite skipn_length, H in Hi.
      rewrite nth_skipn', nth_repeat_lt' by lia. apply E. lia.
  - intros E i Hi. unfold oct. replace i with (k + (i - k))%nat by lia.
    rewrite <- nth_skipn', E, nth_repeat_lt' by lia. reflexivity.
Qed.

Lemma be_skipn_repeat a k x : wf a -> (k <= 16)%nat -> x < 256 ->
  (forall i, (k <= i < 16)%nat -> oct a i = x) <->
  be (skipn k a) = be (repeat x (16 - k)).
Proof.
  intros H Hk Hx. rewrite (skipn_all_eq a k x H Hk). split; [now intros ->|].
  intros E. apply be_inj; auto.
  - apply octets_skipn, H.
  - apply Forall_forall. intros y Hy. apply repeat_spec in Hy. now subst.
  - rewrite skipn_length, repeat_length. destruct H as [-> _]. reflexivity.
Qed.

Definition low_bits (v : N) : N := if mappedb v then 32 else 128.
Definition low_part (v : N) : N := v mod 2 ^ low_bits v.

Lemma low_octet_cases a : wf a ->
  (mappedb (val a) = true /\ low_octet a = 12%nat) \/ (mappedb (val a) = false /\ low_octet a = 0%nat).
Proof.
  intros H. unfold low_octet. rewrite v4mapped_val by auto.
  destruct (mappedb (val a)); auto.
Qed.

Lemma low_octet_le a : (low_octet a <= 12)%nat.
Proof. unfold low_octet. destruct (v4mapped a); lia. Qed.

Lemma be_skipn_low a : wf a -> be (skipn (low_octet a) a) = low_part (val a).
Proof.
  intros H. pose proof (low_octet_le a). rewrite be_skipn_mod by (auto; lia).
  unfold low_part, low_bits.
  destruct (low_octet_cases a H) as [[-> ->]|[-> ->]]; reflexivity.
Qed.

Lemma forallb_low a (f : N -> bool) k : (k <= 16)%nat ->
  forallb (fun i => f (oct a i)) (seq k (16 - k)) = true <->
  (forall i, (k <= i < 16)%nat -> f (oct a i) = true).
Proof.
  intros Hk. rewrite (forallb_seq_eq (fun i => f (oct a i))).
  split; intros E i Hi; apply E; lia.
Qed.

Lemma addr_all_zeroes_iff a : wf a -> addr_all_zeroes a = true <-> low_part (val a) = 0.
Proof.
  intros H. pose proof (low_octet_le a). unfold addr_all_zeroes.
  rewrite (forallb_low a (fun x => x =? 0)) by lia.
  transitivity (forall i, (low_octet a <= i < 16)%nat -> oct a i = 0).
  { split; intros E i Hi; specialize (E i Hi); lia. }
  rewrite be_skipn_repeat by (auto; lia).
  rewrite be_skipn_low, be_repeat by auto. lia.
Qed.

Lemma addr_all_ones_iff a : wf a -> addr_all_ones a = true <-> low_part (val a) = 2 ^ low_bits (val a) - 1.
Proof.
  intros H. pose proof (low_octet_le a). unfold addr_all_ones.
  rewrite (forallb_low a (fun x => negb (x <? 255))) by lia.
  transitivity (forall i, (low_octet a <= i < 16)%nat -> oct a i = 255).
  { split; intros E i Hi; specialize (E i Hi); [|lia]. pose proof (wf_oct a i H). lia. }
  rewrite be_skipn_repeat by (auto; lia).
  rewrite be_skipn_low, be_repeat by auto. unfold low_bits.
  destruct (low_octet_cases a H) as [[-> ->]|[-> ->]]; reflexivity.
Qed.

(** increment *)
Lemma inc_loop_spec k : (k <= 16)%nat -> forall a, wf a ->
  (forall j, (k <= j < 16)%nat -> oct a j = 0) ->
  (exists j, (low_octet a <= j < k)%nat /\ oct a j < 255) ->
  wf (inc_loop a k) /\ val (inc_loop a k) = val a + 256 ^ N.of_nat (16 - k).
Proof.
  induction k; intros Hk a H Hz [j [Hj Hlt]]; [lia|].
  cbn [inc_loop].
  replace (low_octet a <=? k)%nat with true by (symmetry; apply Nat.leb_le; lia).
  replace (16 - S k)%nat with (15 - k)%nat by lia.
  destruct (N.ltb_spec (oct a k) 255).
  - split; [apply wf_upd; auto; lia|].
    pose proof (val_upd a k (oct a k + 1) H ltac:(lia)). lia.
  - pose proof (wf_oct a k H).
    assert (W : wf (upd a k 0)) by (apply wf_upd; auto; lia).
    assert (j <> k) by (intros ->; lia).
    assert (L : low_octet (upd a k 0) = low_octet a).
    { destruct (Nat.le_gt_cases 12 k).
      - unfold low_octet. erewrite v4mapped_hi; [reflexivity|].
        intros i Hi. apply oct_upd_neq. lia.
      - assert (v4mapped a = false) as Hm.
        { unfold low_octet in Hj. destruct (v4mapped a); auto. lia. }
        unfold low_octet. rewrite Hm.
        assert (v4mapped (upd a k 0) = false) as ->; auto.
        unfold v4mapped. destruct (Nat.eq_dec k 11) as [->|].
        + rewrite (oct_upd_eq a 11 0) by (auto; lia). now rewrite andb_false_r.
        + rewrite (oct_upd_neq a k 11 0) by lia. rewrite (Hz 11%nat) by lia.
          now rewrite andb_false_r. }
    destruct (IHk ltac:(lia) (upd a k 0) W) as [IW IV].
    + intros i Hi. destruct (Nat.eq_dec i k) as [->|].
      * now apply oct_upd_eq.
      * rewrite oct_upd_neq by auto. apply Hz. lia.
    + exists j. rewrite L, oct_upd_neq by auto. lia.
    + split; auto. rewrite IV.
      pose proof (val_upd a k 0 H ltac:(lia)) as VU.
      replace (oct a k) with 255 in VU by lia.
      replace (16 - k)%nat with (S (15 - k)) by lia. rewrite pow256_S. lia.
Qed.

Definition is_last (v : N) : Prop := low_part v = 2 ^ low_bits v - 1.
Definition is_zero (v : N) : Prop := low_part v = 0.

Lemma forallb_false_ex {A} (f : A -> bool) l : forallb f l = false -> exists x, In x l /\ f x = false.
Proof.
  induction l; cbn; [discriminate|]. intros H. apply andb_false_iff in H as [H|H]; eauto.
  destruct (IHl H) as [x []]; eauto.
Qed.

Lemma addr_increment_wf_val a : wf a ->
  wf (addr_increment a) /\
  ((is_last (val a) -> val (addr_increment a) = val a) /\
   (~ is_last (val a) -> val (addr_increment a) = val a + 1)).
Proof.
  intros H. pose proof (addr_all_ones_iff a H) as A. unfold addr_increment, is_last.
  destruct (addr_all_ones a) eqn:E.
  - repeat split; try apply H; auto. intros F. exfalso. apply F, A. auto.
  - unfold addr_all_ones in E. apply forallb_false_ex in E as (j & Hj & Hlt).
    cbv beta in Hlt. pose proof (low_octet_le a). apply in_seq in Hj.
    destruct (inc_loop_spec 16 ltac:(lia) a H) as [W V].
    + intros; lia.
    + exists j. split; lia.
    + split; auto. split; intros L.
      * apply A in L. discriminate.
      * exact V.
Qed.

(** decrement; the bound of the loop changes when ::ff00:0:0 turns into an
    IPv4-mapped address on the way. *)
Definition dec_bad : N := 65280 * 2 ^ 32.

Lemma v4mapped_upd11 a : wf a -> v4mapped (upd a 11 255) = true -> oct a 11 = 0 ->
  be (firstn 12 a) = 65280.
Proof.
  intros H M Z. rewrite v4mapped_firstn in M by (apply wf_upd; auto; lia).
  destruct H as [H _]. do 16 (destruct a as [|? a]; [discriminate|]).
  unfold oct in Z. cbn [nth] in Z. subst. cbn [upd firstn repeat app] in M.
  injection M; intros; subst. reflexivity.
Qed.

Lemma be_skipn_255 a k : wf a -> (k <= 16)%nat ->
  (forall j, (k <= j < 16)%nat -> oct a j = 255) -> be (skipn k a) = 256 ^ N.of_nat (16 - k) - 1.
Proof.
  intros H Hk E. apply be_skipn_repeat in E; auto; [|lia]. rewrite E. rewrite be_repeat.
  assert (D : forall n, exists q, 256 ^ N.of_nat n - 1 = q * 255).
  { induction n; [exists 0; reflexivity|]. destruct IHn as [q IH]. rewrite pow256_S.
    pose proof (pow256_pos n). exists (q * 256 + 1). lia. }
  destruct (D (16 - k)%nat) as [q ->]. rewrite N.div_mul by lia. lia.
Qed.

Lemma dec_loop_spec k : (k <= 16)%nat -> forall a, wf a ->
  (forall j, (k <= j < 16)%nat -> oct a j = 255) ->
  (exists j, (low_octet a <= j < k)%nat /\ 0 < oct a j) ->
  val a + 1 <> dec_bad + 256 ^ N.of_nat (16 - k) ->
  wf (dec_loop a k) /\ val (dec_loop a k) + 256 ^ N.of_nat (16 - k) = val a.
Proof.
  induction k; intros Hk a H Hz [j [Hj Hlt]] Hbad; [lia|].
  cbn [dec_loop].
  replace (low_octet a <=? k)%nat with true by (symmetry; apply Nat.leb_le; lia).
  replace (16 - S k)%nat with (15 - k)%nat in * by lia.
  pose proof (wf_oct a k H).
  destruct (N.ltb_spec 0 (oct a k)).
  - split; [apply wf_upd; auto; lia|].
    pose proof (val_upd a k (oct a k - 1) H ltac:(lia)).
    pose proof (pow256_pos (15 - k)). nia.
  - assert (oct a k = 0) as K0 by lia.
    assert (W : wf (upd a k 255)) by (apply wf_upd; auto; lia).
    assert (j <> k) by (intros ->; lia).
    assert (V1 : val (upd a k 255) = val a + 255 * 256 ^ N.of_nat (15 - k)).
    { pose proof (val_upd a k 255 H ltac:(lia)). rewrite K0 in *. lia. }
    assert (L : low_octet (upd a k 255) = low_octet a).
    { destruct (Nat.le_gt_cases 12 k).
      - unfold low_octet. erewrite v4mapped_hi; [reflexivity|].
        intros i Hi. apply oct_upd_neq. lia.
      - assert (v4mapped a = false) as Hm.
        { unfold low_octet in Hj. destruct (v4mapped a); auto. lia. }
        unfold low_octet in *. rewrite Hm in *.
        destruct (v4mapped (upd a k 255)) eqn:Hu; auto. exfalso.
        destruct (Nat.eq_dec k 11) as [->|].
        + apply v4mapped_upd11 in Hu; auto. apply Hbad.
          rewrite (val_split a 12 H), Hu by lia.
          rewrite be_skipn_255 by (auto; lia). reflexivity.
        + unfold v4mapped in Hu. rewrite !andb_true_iff in Hu.
          destruct Hu as [[Hu _] _]. rewrite forallb_seq_eq in Hu.
          destruct (Nat.eq_dec k 10) as [->|].
          * specialize (Hu j ltac:(lia)). cbv beta in Hu. rewrite oct_upd_neq in Hu by auto. lia.
          * specialize (Hu k ltac:(lia)). cbv beta in Hu. rewrite oct_upd_eq in Hu by (auto; lia). lia. }
    destruct (IHk ltac:(lia) (upd a k 255) W) as [IW IV].
    + intros i Hi. destruct (Nat.eq_dec i k) as [->|].
      * now apply oct_upd_eq.
      * rewrite oct_upd_neq by auto. apply Hz. lia.
    + exists j. rewrite L, oct_upd_neq by auto. lia.
    + rewrite V1. replace (16 - k)%nat with (S (15 - k)) by lia. rewrite pow256_S. lia.
    + split; auto. rewrite V1 in IV.
      replace (16 - k)%nat with (S (15 - k)) in IV by lia. rewrite pow256_S in IV. lia.
Qed.

Lemma addr_decrement_wf_val a : wf a -> val a <> dec_bad ->
  wf (addr_decrement a) /\
  ((is_zero (val a) -> val (addr_decrement a) = val a) /\
   (~ is_zero (val a) -> val (addr_decrement a) + 1 = val a)).
Proof.
  intros H Hb. pose proof (addr_all_zeroes_iff a H) as A. unfold addr_decrement, is_zero.
  destruct (addr_all_zeroes a) eqn:E.
  - repeat split; try apply H; auto. intros F. exfalso. apply F, A. auto.
  - unfold addr_all_zeroes in E. apply forallb_false_ex in E as (j & Hj & Hlt).
    cbv beta in Hlt. pose proof (low_octet_le a). apply in_seq in Hj.
    destruct (dec_loop_spec 16 ltac:(lia) a H) as [W V].
    + intros; lia.
    + exists j. split; lia.
    + change (256 ^ N.of_nat (16 - 16)) with 1. lia.
    + split; auto. split; intros L.
      * apply A in L. discriminate.
      * exact V.
Qed.

Lemma addr_decrement_bad : addr_decrement (addr_of dec_bad) = addr_of (65536 * 2 ^ 32 - 1).
Proof. vm_compute. reflexivity. Qed.

(** bit length *)
Lemma ctz_loop_spec x : x <> 0 -> forall fuel k, (forall i, (i < k)%nat -> N.testbit x (N.of_nat i) = false) ->
  x < 2 ^ N.of_nat (k + fuel) ->
  (ctz_loop x k fuel < k + fuel)%nat /\
  N.testbit x (N.of_nat (ctz_loop x k fuel)) = true /\
  (forall i, (i < ctz_loop x k fuel)%nat -> N.testbit x (N.of_nat i) = false).
Proof.
  intros Hx. induction fuel; intros k Hlow Hb.
  - exfalso. apply Hx. apply N.bits_inj_0. intro n. rewrite Nat.add_0_r in Hb.
    destruct (Nat.lt_ge_cases (N.to_nat n) k).
    + specialize (Hlow _ H). now rewrite N2Nat.id in Hlow.
    + rewrite lt_pow2_log2 in Hb. apply Hb. lia.
  - cbn [ctz_loop]. destruct (N.testbit x (N.of_nat k)) eqn:E.
    + repeat split; auto. lia.
    + destruct (IHfuel (S k)) as (I1 & I2 & I3).
      * intros i Hi. destruct (Nat.eq_dec i k) as [->|]; auto. apply Hlow. lia.
      * replace (S k + fuel)%nat with (k + S fuel)%nat by lia. auto.
      * repeat split; auto. lia.
Qed.

Lemma mod_pow2_0 x n : x mod 2 ^ n = 0 <-> (forall i, i < n -> N.testbit x i = false).
Proof.
  split.
  - intros H i Hi. rewrite <- (N.mod_pow2_bits_low x n i) by auto. now rewrite H, N.bits_0.
  - intros H. apply N.bits_inj_0. intro i. destruct (N.lt_ge_cases i n).
    + now rewrite N.mod_pow2_bits_low, H.
    + now rewrite N.mod_pow2_bits_high.
Qed.

Lemma ctz_octet ctz0 x : 0 < x < 256 ->
  (ctz ctz0 x < 8)%nat /\ x mod 2 ^ N.of_nat (ctz ctz0 x) = 0 /\
  x mod 2 ^ N.of_nat (S (ctz ctz0 x)) <> 0.
Proof.
  intros Hx. unfold ctz. destruct (N.eqb_spec x 0); [lia|].
  destruct (ctz_loop_spec x ltac:(lia) 8 0 ltac:(intros; lia)) as (H1 & H2 & H3); [cbn; lia|].
  repeat split; auto.
  - apply mod_pow2_0. intros i Hi. specialize (H3 (N.to_nat i) ltac:(lia)).
    now rewrite N2Nat.id in H3.
  - intros E. rewrite mod_pow2_0 in E. rewrite E in H2 by lia. discriminate.
Qed.

(** [n] octets, the last of them at position [L + n - 1], all above it zero *)
Lemma bit_length_loop_spec ctz0 a L : wf a -> forall n, (L + n <= 16)%nat ->
  (forall j, (L + n <= j < 16)%nat -> oct a j = 0) ->
  let b := bit_length_loop ctz0 a (8 * n) (L + n - 1) n in
  (b <= 8 * n)%nat /\
  be (skipn L a) mod 2 ^ N.of_nat (8 * (16 - L) - b) = 0 /\
  ((8 <= ctz0)%nat -> (0 < b)%nat -> be (skipn L a) mod 2 ^ N.of_nat (8 * (16 - L) - b + 1) <> 0).
Proof.
  intros H. induction n; intros Hn Hz b.
  - subst b. cbn [bit_length_loop]. split; [lia|]. split; [|lia].
    assert (be (skipn L a) = 0) as ->; [|now rewrite N.mod_0_l by (apply N.pow_nonzero; lia)].
    replace (be (skipn L a)) with (be (repeat 0 (16 - L))).
    + rewrite be_repeat. lia.
    + symmetry. apply be_skipn_repeat; auto; try lia. intros. apply Hz. lia.
  - set (o := (L + n)%nat).
    assert (E : be (skipn L a) = be (firstn n (skipn L a)) * 256 ^ N.of_nat (16 - o) + oct a o * 256 ^ N.of_nat (15 - o)).
    { rewrite <- (firstn_skipn n (skipn L a)) at 1. rewrite be_app, skipn_length, skipn_length.
      destruct H as [H HO]. rewrite H. replace (16 - L - n)%nat with (16 - o)%nat by lia. f_equal.
      rewrite skipn_skipn'. replace (n + L)%nat with o by lia.
      rewrite skipn_oct by lia. cbn [be]. rewrite skipn_length, H.
      replace (16 - S o)%nat with (15 - o)%nat by lia.
      assert (be (skipn (S o) a) = 0) as ->; [|lia].
      replace (be (skipn (S o) a)) with (be (repeat 0 (16 - S o))).
      + rewrite be_repeat. lia.
      + symmetry. apply be_skipn_repeat; try lia; [split; auto|]. intros. apply Hz. lia. }
    subst b. cbn [bit_length_loop]. replace (L + S n - 1)%nat with o by lia.
    pose proof (wf_oct a o H) as Ho.
    destruct (N.eq_dec (oct a o) 0) as [Z|Z].
    + (* zero octet *)
      unfold ctz. rewrite Z, N.eqb_refl.
      destruct (Nat.ltb_spec 8 ctz0) as [C|C].
      * change (8 <? 8)%nat with false. cbv iota.
        replace (8 * S n - 8)%nat with (8 * n)%nat by lia.
        replace (o - 1)%nat with (L + n - 1)%nat by lia.
        destruct (IHn ltac:(lia)) as (I1 & I2 & I3).
        -- intros j Hj. destruct (Nat.eq_dec j o) as [->|]; auto. apply Hz. lia.
        -- repeat split; auto. lia.
      * destruct (Nat.ltb_spec ctz0 8) as [C'|C'].
        -- split; [lia|]. split; [|lia].
           rewrite E, Z. replace (16 - o)%nat with (S (15 - o)) by lia.
           rewrite N.mul_0_l, N.add_0_r, (pow256_nat (S (15 - o))).
           apply N.mod_divide; [apply N.pow_nonzero; lia|].
           apply N.divide_mul_r.
           exists (2 ^ N.of_nat (8 * S (15 - o) - (8 * (16 - L) - (8 * S n - ctz0)))).
           rewrite <- N.pow_add_r. f_equal. lia.
        -- replace (8 * S n - ctz0)%nat with (8 * n)%nat by lia.
           replace (o - 1)%nat with (L + n - 1)%nat by lia.
           destruct (IHn ltac:(lia)) as (I1 & I2 & I3).
           ++ intros j Hj. destruct (Nat.eq_dec j o) as [->|]; auto. apply Hz. lia.
           ++ repeat split; auto. lia.
    + destruct (ctz_octet ctz0 (oct a o) ltac:(lia)) as (C1 & C2 & C3).
      set (t := ctz ctz0 (oct a o)) in *.
      replace (8 <? t)%nat with false by (symmetry; apply Nat.ltb_ge; lia). cbv iota.
      replace (t <? 8)%nat with true by (symmetry; apply Nat.ltb_lt; lia). cbv iota.
      split; [clear -Hn; lia|].
      replace (8 * (16 - L) - (8 * S n - t))%nat with (8 * (15 - o) + t)%nat by (subst o; clear -Hn C1; lia).
      assert (E2 : be (skipn L a) = (be (firstn n (skipn L a)) * 256 + oct a o) * 2 ^ N.of_nat (8 * (15 - o))).
      { rewrite E. replace (16 - o)%nat with (S (15 - o)) by (subst o; clear -Hn; lia).
        rewrite pow256_S, (pow256_nat (15 - o)). clear. lia. }
      assert (M : forall s, (s <= 8)%nat ->
         be (skipn L a) mod 2 ^ N.of_nat (8 * (15 - o) + s) = (oct a o mod 2 ^ N.of_nat s) * 2 ^ N.of_nat (8 * (15 - o))).
      { intros s Hs. rewrite E2, Nat.add_comm, Nat2N.inj_add, N.pow_add_r.
        rewrite N.mul_mod_distr_r by (apply N.pow_nonzero; lia). f_equal.
        replace 256 with (2 ^ N.of_nat (8 - s) * 2 ^ N.of_nat s)
          by (rewrite <- N.pow_add_r, <- Nat2N.inj_add; replace (8 - s + s)%nat with 8%nat by (clear -Hs; lia); reflexivity).
        rewrite N.mul_assoc, N.add_comm, N.mod_add by (apply N.pow_nonzero; lia). reflexivity. }
      split.
      * rewrite M, C2 by lia. reflexivity.
      * intros _ _. replace (8 * (15 - o) + t + 1)%nat with (8 * (15 - o) + S t)%nat by lia.
        rewrite M by lia. intros F. apply N.mul_eq_0 in F as [F|F]; [now apply C3|].
        revert F. apply N.pow_nonzero. lia.
Qed.

Lemma addr_bit_length_spec ctz0 a : wf a ->
  let W := N.to_nat (low_bits (val a)) in
  let b := addr_bit_length ctz0 a in
  (b <= W)%nat /\
  low_part (val a) mod 2 ^ N.of_nat (W - b) = 0 /\
  ((8 <= ctz0)%nat -> (0 < b)%nat -> low_part (val a) mod 2 ^ N.of_nat (W - b + 1) <> 0).
Proof.
  intros H W b. pose proof (low_octet_le a).
  pose proof (bit_length_loop_spec ctz0 a (low_octet a) H (16 - low_octet a) ltac:(lia) ltac:(intros; lia)) as S.
  cbv zeta in S. rewrite be_skipn_low in S by auto.
  subst b W. unfold addr_bit_length, low_bits. rewrite v4mapped_val by auto.
  destruct (low_octet_cases a H) as [[E1 E2]|[E1 E2]]; rewrite E1, E2 in *; exact S.
Qed.

(** common bits *)
Lemma div_pow2_eq x y n : x / 2 ^ n = y / 2 ^ n <-> (forall i, n <= i -> N.testbit x i = N.testbit y i).
Proof.
  rewrite <- !N.shiftr_div_pow2. split.
  - intros E i Hi. replace i with ((i - n) + n) by lia. rewrite <- !N.shiftr_spec', E. reflexivity.
  - intros E. apply N.bits_inj. intro i. rewrite !N.shiftr_spec'. apply E. lia.
Qed.

Lemma clz8_spec x y : x < 256 -> y < 256 -> x <> y ->
  let c := clz8 (N.lxor x y) in
  (c < 8)%nat /\ x / 2 ^ N.of_nat (8 - c) = y / 2 ^ N.of_nat (8 - c) /\
  N.testbit x (N.of_nat (7 - c)) <> N.testbit y (N.of_nat (7 - c)).
Proof.
  intros Hx Hy Hn c. set (d := N.log2 (N.lxor x y)).
  assert (Hl : N.lxor x y <> 0) by (rewrite N.lxor_eq_0_iff; auto).
  assert (Hd : d < 8).
  { apply N.log2_lt_pow2; [lia|]. change 256 with (2 ^ 8) in *. apply lt_pow2_log2. intros k Hk.
    rewrite lt_pow2_log2 in Hx, Hy. now rewrite N.lxor_spec, Hx, Hy. }
  assert (C : c = (7 - N.to_nat d)%nat) by reflexivity.
  split; [lia|]. split.
  - apply div_pow2_eq. intros i Hi.
    assert (N.testbit (N.lxor x y) i = false) as B by (apply N.bits_above_log2; fold d; lia).
    rewrite N.lxor_spec in B. now destruct (N.testbit x i), (N.testbit y i).
  - replace (N.of_nat (7 - c)) with d by lia.
    pose proof (N.bit_log2 (N.lxor x y) Hl) as B. fold d in B. rewrite N.lxor_spec in B.
    now destruct (N.testbit x d), (N.testbit y d).
Qed.

Lemma be_skipn_S a i : wf a -> (i < 16)%nat ->
  be (skipn i a) = oct a i * 256 ^ N.of_nat (15 - i) + be (skipn (S i) a).
Proof.
  intros H Hi. destruct H as [H _]. rewrite skipn_oct by lia. cbn [be].
  rewrite skipn_length, H. reflexivity.
Qed.

Lemma common_bits_loop_shift a b i n : forall bits,
  common_bits_loop a b i bits n = (bits + common_bits_loop a b i 0 n)%nat.
Proof.
  revert i. induction n; intros i bits; cbn [common_bits_loop]; [lia|].
  destruct (oct a i =? oct b i).
  - rewrite IHn, (IHn (S i) (0 + 8)%nat). lia.
  - lia.
Qed.

Lemma common_bits_loop_spec a b : wf a -> wf b -> forall n i, (i + n = 16)%nat ->
  let c := common_bits_loop a b i 0 n in
  (c <= 8 * n)%nat /\
  be (skipn i a) / 2 ^ N.of_nat (8 * n - c) = be (skipn i b) / 2 ^ N.of_nat (8 * n - c) /\
  ((c < 8 * n)%nat -> N.testbit (be (skipn i a)) (N.of_nat (8 * n - c - 1))
                    <> N.testbit (be (skipn i b)) (N.of_nat (8 * n - c - 1))).
Proof.
  intros Ha Hb. induction n; intros i Hi c.
  - subst c. cbn [common_bits_loop]. split; [lia|]. split; [|lia].
    replace i with 16%nat by lia. rewrite !skipn_all2 by (destruct Ha, Hb; lia). reflexivity.
  - subst c. cbn [common_bits_loop].
    pose proof (be_skipn_S a i Ha ltac:(lia)) as Ea. pose proof (be_skipn_S b i Hb ltac:(lia)) as Eb.
    replace (15 - i)%nat with n in * by lia.
    pose proof (be_skipn_bound a (S i) Ha ltac:(lia)) as Ba.
    pose proof (be_skipn_bound b (S i) Hb ltac:(lia)) as Bb.
    replace (16 - S i)%nat with n in * by lia. rewrite pow256_nat in *.
    set (P := 2 ^ N.of_nat (8 * n)) in *. assert (P <> 0) by (apply N.pow_nonzero; lia).
    destruct (N.eqb_spec (oct a i) (oct b i)) as [E|E].
    + rewrite common_bits_loop_shift. destruct (IHn (S i) ltac:(lia)) as (I1 & I2 & I3).
      set (c := common_bits_loop a b (S i) 0 n) in *.
      replace (8 * S n - (0 + 8 + c))%nat with (8 * n - c)%nat by (clear; lia).
      split; [lia|]. rewrite Ea, Eb, E. split.
      * assert (P = 2 ^ N.of_nat c * 2 ^ N.of_nat (8 * n - c)) as ->.
        { rewrite <- N.pow_add_r. subst P. f_equal. clear -I1. lia. }
        rewrite N.mul_assoc, !N.div_add_l by (apply N.pow_nonzero; lia). now rewrite I2.
      * intros Hc. specialize (I3 ltac:(lia)). intros F. apply I3. revert F.
        assert (T : forall y, y < P -> N.testbit (oct b i * P + y) (N.of_nat (8 * n - c - 1)) = N.testbit y (N.of_nat (8 * n - c - 1))).
        { intros y Hy. rewrite <- (N.mod_pow2_bits_low (oct b i * P + y) (N.of_nat (8 * n))) by lia.
          fold P. rewrite N.add_comm, N.mod_add, N.mod_small by auto. reflexivity. }
        now rewrite !T.
    + pose proof (wf_oct a i Ha) as Oa. pose proof (wf_oct b i Hb) as Ob.
      destruct (clz8_spec _ _ Oa Ob E) as (C1 & C2 & C3). cbv zeta in *.
      set (c := clz8 (N.lxor (oct a i) (oct b i))) in *. rewrite Nat.add_0_l.
      split; [lia|]. rewrite Ea, Eb.
      replace (8 * S n - c)%nat with (8 * n + (8 - c))%nat by (clear -C1; lia). split.
      * rewrite Nat2N.inj_add, N.pow_add_r. fold P.
        rewrite <- !N.div_div by (auto; apply N.pow_nonzero; lia).
        rewrite !N.div_add_l, !(N.div_small (be _)), !N.add_0_r by auto. exact C2.
      * intros _. replace (N.of_nat (8 * n + (8 - c) - 1)) with (N.of_nat (7 - c) + N.of_nat (8 * n)) by (clear -C1; lia).
        rewrite <- !N.shiftr_spec', !N.shiftr_div_pow2. fold P.
        rewrite !N.div_add_l, !(N.div_small (be _)), !N.add_0_r by auto. exact C3.
Qed.

Lemma addr_common_bits_spec a b : wf a -> wf b -> mappedb (val a) = mappedb (val b) ->
  exists c, addr_common_bits a b = Some c /\
  let W := N.to_nat (low_bits (val a)) in
  (c <= W)%nat /\
  low_part (val a) / 2 ^ N.of_nat (W - c) = low_part (val b) / 2 ^ N.of_nat (W - c) /\
  ((c < W)%nat -> N.testbit (low_part (val a)) (N.of_nat (W - c - 1))
               <> N.testbit (low_part (val b)) (N.of_nat (W - c - 1))).
Proof.
  intros Ha Hb HF. unfold addr_common_bits. rewrite !v4mapped_val by auto.
  rewrite <- HF. rewrite andb_negb_r, (andb_comm (negb _)), andb_negb_r. eexists. split; [reflexivity|].
  pose proof (low_octet_le a).
  assert (L : low_octet b = low_octet a) by (unfold low_octet; rewrite !v4mapped_val by auto; now rewrite HF).
  pose proof (common_bits_loop_spec a b Ha Hb (16 - low_octet a) (low_octet a) ltac:(lia)) as S.
  cbv zeta in S. rewrite be_skipn_low in S by auto.
  assert (Lb : be (skipn (low_octet a) b) = low_part (val b)) by (rewrite <- L; now apply be_skipn_low).
  rewrite Lb in S.
  cbv zeta. unfold low_bits.
  destruct (low_octet_cases a Ha) as [[E1 E2]|[E1 E2]]; rewrite E1, E2 in *; exact S.
Qed.

(** subtraction *)
Lemma addr_sub_loop_spec a1 a2 L : wf a1 -> wf a2 -> forall n res rem, (L + n <= 16)%nat -> wf res ->
  let r := addr_sub_loop res a1 a2 rem (L + n - 1) n in
  wf r /\ (forall j, (j < L \/ L + n <= j)%nat -> oct r j = oct res j) /\
  Z.of_N (be (firstn n (skipn L r))) =
  ((Z.of_N (be (firstn n (skipn L a1))) - Z.of_N (be (firstn n (skipn L a2))) + rem)
    mod (256 ^ Z.of_nat n))%Z.
Proof.
  intros H1 H2. induction n; intros res rem Hn Hr r.
  - subst r. cbn [addr_sub_loop]. split; auto. split; auto. cbn [firstn be].
    now rewrite Z.mod_1_r.
  - subst r. cbn [addr_sub_loop]. replace (L + S n - 1)%nat with (L + n)%nat by lia.
    set (o := (L + n)%nat).
    set (x := (Z.of_N (oct a1 o) - Z.of_N (oct a2 o) + rem)%Z).
    assert (X : (0 <= x mod 256 < 256)%Z) by (apply Z.mod_pos_bound; lia).
    assert (W : wf (upd res o (Z.to_N (x mod 256)))) by (apply wf_upd; auto; lia).
    destruct (IHn (upd res o (Z.to_N (x mod 256))) (x / 256)%Z ltac:(lia) W) as (I1 & I2 & I3).
    replace (o - 1)%nat with (L + n - 1)%nat by lia.
    set (r := addr_sub_loop _ _ _ _ _ _) in *.
    split; [auto|]. split.
    + intros j Hj. rewrite I2 by lia. apply oct_upd_neq. lia.
    + assert (Sp : forall a, wf a -> be (firstn (S n) (skipn L a)) = be (firstn n (skipn L a)) * 256 + oct a o).
      { intros a [Ha _]. rewrite <- (firstn_skipn n (firstn (S n) (skipn L a))).
        rewrite firstn_firstn. replace (Nat.min n (S n)) with n by lia.
        rewrite skipn_firstn_comm. replace (S n - n)%nat with 1%nat by lia.
        rewrite skipn_skipn'. replace (n + L)%nat with o by lia.
        rewrite (skipn_oct a o) by lia. cbn [firstn]. rewrite be_app. cbn [be length].
        change (256 ^ N.of_nat 1) with 256. change (256 ^ N.of_nat 0) with 1. lia. }
      rewrite !Sp by auto.
      assert (oct r o = Z.to_N (x mod 256)) as ->.
      { rewrite I2 by lia. apply oct_upd_eq; auto. lia. }
      set (A := be (firstn n (skipn L a1))) in *. set (B := be (firstn n (skipn L a2))) in *.
      set (R := be (firstn n (skipn L r))) in *.
      replace (Z.of_nat (S n)) with (Z.of_nat n + 1)%Z by lia.
      rewrite Z.pow_add_r by lia. change (256 ^ 1)%Z with 256%Z.
      rewrite (Z.mul_comm (256 ^ _)), Z.rem_mul_r by lia.
      assert (Ex : (Z.of_N (A * 256 + oct a1 o) - Z.of_N (B * 256 + oct a2 o) + rem)%Z = (x + (Z.of_N A - Z.of_N B) * 256)%Z) by (subst x; lia).
      rewrite Ex, Z.mod_add, Z.div_add by lia.
      replace (x / 256 + (Z.of_N A - Z.of_N B))%Z with (Z.of_N A - Z.of_N B + x / 256)%Z by lia.
      rewrite <- I3. lia.
Qed.

Lemma firstn_exact a L : wf a -> firstn (16 - L) (skipn L a) = skipn L a.
Proof. intros [H _]. apply firstn_all2. rewrite skipn_length. lia. Qed.

Lemma addr_sub_spec a1 a2 : wf a1 -> wf a2 -> mappedb (val a1) = mappedb (val a2) ->
  exists r, addr_sub a1 a2 = Ok r /\ wf r /\
  Z.of_N (val r) =
  ((if mappedb (val a1) then 65535 * 2 ^ 32 else 0) +
   (Z.of_N (low_part (val a1)) - Z.of_N (low_part (val a2))) mod (2 ^ Z.of_N (low_bits (val a1))))%Z.
Proof.
  intros H1 H2 HF. unfold addr_sub, addr_family. rewrite !v4mapped_val, <- HF by auto.
  replace (family_eqb _ _) with true by now destruct (mappedb (val a1)).
  eexists. split; [reflexivity|].
  pose proof (low_octet_le a1).
  set (res := addr_reset _).
  assert (Hr : wf res) by (subst res; destruct (mappedb (val a1)); split; auto; repeat constructor).
  assert (L : low_octet a2 = low_octet a1) by (unfold low_octet; rewrite !v4mapped_val by auto; now rewrite HF).
  assert (Lb : be (skipn (low_octet a1) a2) = low_part (val a2)) by (rewrite <- L; now apply be_skipn_low).
  pose proof (addr_sub_loop_spec a1 a2 (low_octet a1) H1 H2 (16 - low_octet a1) res 0%Z ltac:(lia) Hr) as S.
  cbv zeta in S. replace (low_octet a1 + (16 - low_octet a1) - 1)%nat with 15%nat in S by lia.
  set (r := addr_sub_loop _ _ _ _ _ _) in *.
  destruct S as (S1 & S2 & S3). split; [auto|].
  rewrite !firstn_exact in S3 by auto. rewrite Lb, be_skipn_low, Z.add_0_r in S3 by auto.
  rewrite (val_split r (low_octet a1) S1) by lia.
  assert (F : firstn (low_octet a1) r = firstn (low_octet a1) res).
  { apply nth_ext with (d := 0) (d' := 0).
    - rewrite !firstn_length. destruct S1 as [-> _], Hr as [-> _]. reflexivity.
    - intros i Hi. rewrite firstn_length in Hi. rewrite !nth_firstn_lt' by lia. apply S2. lia. }
  rewrite F. unfold low_bits.
  destruct (low_octet_cases a1 H1) as [[E1 E2]|[E1 E2]]; rewrite E1, E2 in *; subst res.
  - rewrite N2Z.inj_add, S3, E1. reflexivity.
  - rewrite N2Z.inj_add, S3, E1. reflexivity.
Qed.

Lemma addr_sub_families a1 a2 : wf a1 -> wf a2 -> mappedb (val a1) <> mappedb (val a2) ->
  addr_sub a1 a2 = Err 1.
Proof.
  intros H1 H2 HF. unfold addr_sub, addr_family. rewrite !v4mapped_val by auto.
  destruct (mappedb (val a1)), (mappedb (val a2)); auto; congruence.
Qed.
