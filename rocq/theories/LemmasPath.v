(** Networks as bit strings: the paths the tree uses. *)
From Coq Require Import NArith ZArith List Bool Arith Lia ZifyBool ZifyNat ZifyN.
From Verif Require Import Base LemmasBase ModelAddress LemmasAddress ModelCountryCode ModelNetwork
  LemmasNetwork ModelNetworkList ModelTree.
Import ListNotations.
Open Scope N_scope.

(** the [len] low bits of q, most significant first *)
Fixpoint msb (len : nat) (q : N) : list bool :=
  match len with O => [] | S l => msb l (q / 2) ++ [N.odd q] end.

Lemma msb_length len : forall q, length (msb len q) = len.
Proof. induction len as [|l IH]; intros q; cbn [msb length]; auto. rewrite app_length, IH. cbn [length]. lia. Qed.

Lemma msb_inj len : forall q q', q < 2 ^ N.of_nat len -> q' < 2 ^ N.of_nat len ->
  msb len q = msb len q' -> q = q'.
Proof.
  induction len as [|l IH]; intros q q' H H'; cbn [msb].
  - cbn in H, H'. lia.
  - intros E. apply app_inj_tail in E as [E1 E2].
    assert (P : 2 ^ N.of_nat (S l) = 2 * 2 ^ N.of_nat l) by (rewrite Nat2N.inj_succ, N.pow_succ_r'; reflexivity).
    rewrite P in H, H'.
    apply IH in E1; try (apply N.div_lt_upper_bound; lia).
    rewrite (N.div_mod q 2), (N.div_mod q' 2) by lia. rewrite <- !N.bit0_mod, !N.bit0_odd, E1, E2. reflexivity.
Qed.

Lemma msb_firstn j : forall k q, firstn k (msb (k + j) q) = msb k (q / 2 ^ N.of_nat j).
Proof.
  induction j as [|j IH]; intros k q.
  - rewrite Nat.add_0_r. cbn [N.of_nat]. rewrite N.pow_0_r, N.div_1_r.
    rewrite <- (msb_length k q) at 1. apply firstn_all.
  - replace (k + S j)%nat with (S (k + j)) by lia. cbn [msb].
    rewrite firstn_app, msb_length. replace (k - (k + j))%nat with 0%nat by lia.
    cbn [firstn]. rewrite app_nil_r, IH. f_equal. rewrite N.div_div by (try apply N.pow_nonzero; lia).
    f_equal. rewrite Nat2N.inj_succ, N.pow_succ_r'. reflexivity.
Qed.

Lemma msb_nth len : forall q i, (i < len)%nat -> nth i (msb len q) false = N.testbit q (N.of_nat (len - 1 - i)).
Proof.
  induction len as [|l IH]; intros q i H; [lia|]. cbn [msb].
  destruct (Nat.eq_dec i l) as [->|D].
  - rewrite app_nth2 by (rewrite msb_length; lia). rewrite msb_length.
    replace (l - l)%nat with 0%nat by lia. replace (S l - 1 - l)%nat with 0%nat by lia.
    cbn [nth N.of_nat]. now rewrite N.bit0_odd.
  - rewrite app_nth1 by (rewrite msb_length; lia). rewrite IH by lia.
    rewrite <- N.div2_div, N.div2_spec, N.shiftr_spec'. f_equal. lia.
Qed.

Lemma path_length n : length (path n) = n_prefix n.
Proof. unfold path. rewrite map_length, seq_length. reflexivity. Qed.

Lemma path_msb n : net_wf n -> path n = msb (n_prefix n) (lo n / blk (n_prefix n)).
Proof.
  intros H. pose proof (w_prefix n H) as P.
  apply nth_ext with (d := false) (d' := false); [now rewrite path_length, msb_length|].
  rewrite path_length. intros i Hi. rewrite msb_nth by auto.
  unfold blk. rewrite N.div_pow2_bits. unfold path.
  rewrite (nth_indep _ false (addr_get_bit (n_first n) 0 =? 1)) by (rewrite map_length, seq_length; lia).
  rewrite map_nth with (f := fun i => addr_get_bit (n_first n) i =? 1) (d := 0%nat).
  rewrite seq_nth by auto. rewrite addr_get_bit_spec by (try apply H; lia).
  unfold lo. replace (N.of_nat (n_prefix n - 1 - i) + N.of_nat (128 - n_prefix n)) with (N.of_nat (127 - (0 + i))) by lia.
  now destruct (N.testbit _ _).
Qed.

Definition pre (p q : list bool) : Prop := exists r, q = p ++ r.

Lemma pre_refl p : pre p p.
Proof. exists []. now rewrite app_nil_r. Qed.
Lemma pre_app p r : pre p (p ++ r).
Proof. now exists r. Qed.
Lemma pre_trans p q r : pre p q -> pre q r -> pre p r.
Proof. intros [x ->] [y ->]. exists (x ++ y). now rewrite app_assoc. Qed.
Lemma pre_firstn p q : pre p q <-> firstn (length p) q = p.
Proof.
  split.
  - intros [r ->]. rewrite firstn_app, Nat.sub_diag, firstn_O, app_nil_r. apply firstn_all.
  - intros <-. exists (skipn (length p) q). now rewrite firstn_skipn.
Qed.
Lemma pre_length p q : pre p q -> (length p <= length q)%nat.
Proof. intros [r ->]. rewrite app_length. lia. Qed.
Lemma pre_antisym p q : pre p q -> (length q <= length p)%nat -> p = q.
Proof.
  intros [r ->] H. rewrite app_length in H. destruct r; [|cbn [length] in H; lia]. now rewrite app_nil_r.
Qed.
Lemma pre_comparable p q r : pre p r -> pre q r -> (length p <= length q)%nat -> pre p q.
Proof.
  rewrite !pre_firstn. intros H1 H2 L. rewrite <- H2 at 1. rewrite firstn_firstn.
  replace (Nat.min (length p) (length q)) with (length p) by lia. exact H1.
Qed.
Lemma pre_cons_inv p b q : pre p (b :: q) -> p = [] \/ exists p', p = b :: p' /\ pre p' q.
Proof.
  intros [r E]. destruct p as [|x p]; auto. right. cbn in E. injection E as -> ->. exists p. split; auto. now exists r.
Qed.
Lemma pre_snoc p q b : pre p (q ++ [b]) -> pre p q \/ p = q ++ [b].
Proof.
  intros [r E]. destruct r as [|x r _] using rev_ind.
  - right. now rewrite app_nil_r in E.
  - left. rewrite app_assoc in E. apply app_inj_tail in E as [E _]. now exists r.
Qed.

Lemma div_blk_lt v p : (p <= 128)%nat -> v < 2 ^ 128 -> v / blk p < 2 ^ N.of_nat p.
Proof.
  intros P H. apply N.div_lt_upper_bound; [pose proof (blk_pos p); lia|].
  unfold blk. rewrite <- N.pow_add_r. replace (N.of_nat (128 - p) + N.of_nat p) with 128 by lia. exact H.
Qed.

Lemma msb_prefix v p : (p <= 128)%nat -> firstn p (msb 128 v) = msb p (v / blk p).
Proof.
  intros P. replace 128%nat with (p + (128 - p))%nat at 1 by lia. rewrite msb_firstn. reflexivity.
Qed.

Lemma inb_path n v : net_wf n -> v < 2 ^ 128 -> inb n v <-> pre (path n) (msb 128 v).
Proof.
  intros H V. pose proof (w_prefix n H) as P. rewrite inb_iff by auto.
  rewrite pre_firstn, path_length, msb_prefix by auto. rewrite (path_msb n H). split.
  - now intros ->.
  - apply msb_inj; apply div_blk_lt; auto. now apply lo_bound.
Qed.

Lemma path_firstn_lo n : net_wf n -> path n = firstn (n_prefix n) (msb 128 (lo n)).
Proof. intros H. rewrite msb_prefix by apply H. now apply path_msb. Qed.

Lemma path_pre_lo n : net_wf n -> pre (path n) (msb 128 (lo n)).
Proof. intros H. apply inb_path; auto; [now apply lo_bound|now apply inb_lo]. Qed.

Lemma subnet_path n m : net_wf n -> net_wf m -> is_subnet n m = true <-> pre (path n) (path m).
Proof.
  intros Hn Hm. rewrite is_subnet_incl by auto. split.
  - intros I. pose proof (I (lo m) (inb_lo m Hm)) as I1.
    pose proof (I (hi m) (inb_hi m Hm)) as I2.
    apply pre_comparable with (r := msb 128 (lo m)).
    + apply inb_path; auto. now apply lo_bound.
    + now apply path_pre_lo.
    + rewrite !path_length. apply incl_prefix; auto; apply I1 || apply I2.
  - intros Hp v Hv.
    assert (v < 2 ^ 128) by (destruct Hv; pose proof (hi_bound m Hm); lia).
    apply inb_path; auto. apply inb_path in Hv; auto. now apply pre_trans with (path m).
Qed.

Lemma path_eq n m : net_wf n -> net_wf m -> path n = path m <-> K n = K m.
Proof.
  intros Hn Hm. rewrite K_eq by auto. split.
  - intros E. assert (n_prefix n = n_prefix m) as P by now rewrite <- !path_length, E.
    split; auto. rewrite (lo_div n Hn), (lo_div m Hm).
    rewrite (path_msb n Hn), (path_msb m Hm), P in E.
    apply msb_inj in E; try (apply div_blk_lt; [apply Hm|]; now apply lo_bound). now rewrite P, E.
  - intros [E P]. rewrite !path_msb by auto. now rewrite E, P.
Qed.

Lemma pre_K n m : net_wf n -> net_wf m -> pre (path n) (path m) -> path n <> path m -> K n < K m.
Proof.
  intros Hn Hm Hp D. pose proof (proj2 (subnet_path n m Hn Hm) Hp) as I.
  apply is_subnet_iff in I as [I _]; auto.
  assert (n_prefix n < n_prefix m)%nat.
  { rewrite <- !path_length. pose proof (pre_length _ _ Hp).
    destruct (Nat.eq_dec (length (path n)) (length (path m))); [|lia].
    exfalso. apply D, pre_antisym; auto. lia. }
  unfold K. lia.
Qed.

Lemma msb_snoc len q b : msb (S len) (2 * q + N.b2n b) = msb len q ++ [b].
Proof.
  cbn [msb]. f_equal.
  - f_equal. rewrite N.add_comm. apply N.add_b2n_double_div2.
  - rewrite <- N.bit0_odd. rewrite N.add_comm, N.add_b2n_double_bit0. reflexivity.
Qed.

Lemma halves_path n x m : net_wf n -> net_wf x -> halves n x -> merged n m ->
  path n = path m ++ [false] /\ path x = path m ++ [true].
Proof.
  intros Hn Hx H (Wm & Pm & Lm & _). pose proof (w_prefix n Hn) as P.
  rewrite !path_msb by auto. rewrite <- (h_prefix n x H), <- Pm, (h_next n x H), Lm, <- Pm.
  pose proof (lo_div m Wm) as D. rewrite Lm in D. rewrite (blk_S (n_prefix m)) in D |- * by lia.
  pose proof (blk_pos (S (n_prefix m))) as B.
  set (b := blk (S (n_prefix m))) in *. set (q := lo n / (2 * b)) in *. rewrite D.
  replace (q * (2 * b)) with (2 * q * b) by lia.
  rewrite N.div_mul by lia.
  replace (2 * q * b + b) with ((2 * q + 1) * b) by lia. rewrite N.div_mul by lia.
  split.
  - rewrite <- (msb_snoc _ q false). cbn [N.b2n]. f_equal. lia.
  - now rewrite <- (msb_snoc _ q true).
Qed.
