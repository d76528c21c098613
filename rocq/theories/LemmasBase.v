(** Lemmas on octet lists and big endian numbers. *)
From Coq Require Import NArith ZArith List Bool Arith Lia ZifyBool ZifyNat ZifyN.
From Verif Require Import Base.
Import ListNotations.
Open Scope N_scope.

Definition octets (l : list N) : Prop := Forall octet_ok l.

Lemma octets_app l1 l2 : octets (l1 ++ l2) <-> octets l1 /\ octets l2.
Proof. apply Forall_app. Qed.

Lemma octets_nth l i : octets l -> nth i l 0 < 256.
Proof.
  intros H. destruct (Nat.lt_ge_cases i (length l)) as [Hi|Hi].
  - unfold octets in H. rewrite Forall_forall in H. apply H. apply nth_In; lia.
  - rewrite nth_overflow by lia. lia.
Qed.

(** [upd] *)
Lemma upd_length {A} (l : list A) i v : length (upd l i v) = length l.
Proof. revert i; induction l; intros [|i]; cbn; auto. Qed.

Lemma nth_upd_eq {A} (l : list A) i v d : (i < length l)%nat -> nth i (upd l i v) d = v.
Proof. revert i; induction l; intros [|i] H; cbn in *; try lia; auto. apply IHl; lia. Qed.

Lemma nth_upd_neq {A} (l : list A) i j v d : i <> j -> nth j (upd l i v) d = nth j l d.
Proof.
  revert i j; induction l; intros [|i] [|j] H; cbn in *; auto; try lia.
Qed.

Lemma upd_app_r {A} (l1 l2 : list A) i v : upd (l1 ++ l2) (length l1 + i) v = l1 ++ upd l2 i v.
Proof. induction l1; cbn; auto. now rewrite IHl1. Qed.

Lemma upd_app_l {A} (l1 l2 : list A) i v : (i < length l1)%nat -> upd (l1 ++ l2) i v = upd l1 i v ++ l2.
Proof. revert i; induction l1; intros [|i] H; cbn in *; try lia; auto. now rewrite IHl1 by lia. Qed.

Lemma octets_upd l i v : octets l -> v < 256 -> octets (upd l i v).
Proof.
  unfold octets. intros H Hv. revert i. induction H; intros [|i]; cbn; constructor; auto.
Qed.

Lemma upd_same {A} (l : list A) i d : upd l i (nth i l d) = l.
Proof. revert i; induction l; intros [|i]; cbn; auto. now rewrite IHl. Qed.

(** [be] *)
Lemma pow256_pos n : 0 < 256 ^ N.of_nat n.
Proof. apply N.neq_0_lt_0, N.pow_nonzero; lia. Qed.

Lemma pow256_S n : 256 ^ N.of_nat (S n) = 256 * 256 ^ N.of_nat n.
Proof. now rewrite Nat2N.inj_succ, N.pow_succ_r by lia. Qed.

Lemma pow256_add n m : 256 ^ N.of_nat (n + m) = 256 ^ N.of_nat n * 256 ^ N.of_nat m.
Proof. now rewrite Nat2N.inj_add, N.pow_add_r. Qed.

Lemma pow256_pow2 n : 256 ^ N.of_nat n = 2 ^ (8 * N.of_nat n).
Proof. change 256 with (2 ^ 8). now rewrite <- N.pow_mul_r. Qed.

Lemma be_bound l : octets l -> be l < 256 ^ N.of_nat (length l).
Proof.
  induction 1 as [|x l Hx Hl IH]; [cbn; lia|].
  cbn [be length]. rewrite pow256_S. unfold octet_ok in Hx. nia.
Qed.

Lemma be_app l1 l2 : be (l1 ++ l2) = be l1 * 256 ^ N.of_nat (length l2) + be l2.
Proof.
  induction l1 as [|x l1 IH]; [cbn; lia|].
  cbn [be app]. rewrite IH, app_length, pow256_add. lia.
Qed.

Lemma be_upd l i v : (i < length l)%nat ->
  be (upd l i v) + nth i l 0 * 256 ^ N.of_nat (length l - 1 - i)
  = be l + v * 256 ^ N.of_nat (length l - 1 - i).
Proof.
  revert i; induction l as [|x l IH]; intros [|i] H; cbn [length] in *; try lia.
  - cbn [upd be nth]. replace (S (length l) - 1 - 0)%nat with (length l) by lia. lia.
  - cbn [upd be nth]. rewrite upd_length. specialize (IH i ltac:(lia)).
    replace (S (length l) - 1 - S i)%nat with (length l - 1 - i)%nat by lia. lia.
Qed.

Lemma be_inj l1 l2 : octets l1 -> octets l2 -> length l1 = length l2 -> be l1 = be l2 -> l1 = l2.
Proof.
  intros H1; revert l2; induction H1 as [|x l1 Hx Hl IH]; intros [|y l2] H2 Hlen Hbe;
    cbn [length] in *; try lia; auto.
  inversion H2 as [|? ? Hy Hl2]; subst. cbn [be] in Hbe. assert (E : length l1 = length l2) by lia.
  rewrite E in Hbe. pose proof (be_bound l1 Hl) as B1. pose proof (be_bound l2 Hl2) as B2.
  rewrite E in B1. set (P := 256 ^ N.of_nat (length l2)) in *.
  assert (x = y) by nia. subst. f_equal. apply IH; auto. lia.
Qed.

Lemma to_be_length k n : length (to_be k n) = k.
Proof. induction k; cbn; auto. Qed.

Lemma to_be_octets k n : octets (to_be k n).
Proof. induction k; cbn; constructor; auto. unfold octet_ok. apply N.mod_lt; lia. Qed.

Lemma be_to_be_mod k n : be (to_be k n) = n mod 256 ^ N.of_nat k.
Proof.
  induction k; [cbn; now rewrite N.mod_1_r|].
  cbn [to_be be]. rewrite to_be_length, IHk, pow256_S.
  rewrite (N.mul_comm 256), N.mod_mul_r by (pose proof (pow256_pos k); lia). lia.
Qed.

Lemma be_to_be k n : n < 256 ^ N.of_nat k -> be (to_be k n) = n.
Proof. intros. rewrite be_to_be_mod. now apply N.mod_small. Qed.

Lemma to_be_be l : octets l -> to_be (length l) (be l) = l.
Proof.
  intros H. apply be_inj; auto using to_be_octets, to_be_length.
  rewrite be_to_be; auto. now apply be_bound.
Qed.

Lemma be_testbit l i : octets l -> (i < 8 * length l)%nat ->
  N.testbit (be l) (N.of_nat (8 * length l - 1 - i)) = N.testbit (nth (i / 8) l 0) (N.of_nat (7 - i mod 8)).
Proof.
  revert i; induction l as [|x l IH]; intros i Ho Hi; cbn [length] in *; [lia|].
  inversion Ho as [|? ? Hx Hl]; subst. cbn [be].
  pose proof (be_bound l Hl) as Hb.
  rewrite pow256_pow2 in *.
  destruct (Nat.lt_ge_cases i 8) as [H8|H8].
  - rewrite (Nat.div_small i 8), (Nat.mod_small i 8) by lia. cbn [nth].
    rewrite <- N.shiftl_mul_pow2.
    assert (E : N.shiftl x (8 * N.of_nat (length l)) + be l
                = N.lor (N.shiftl x (8 * N.of_nat (length l))) (be l)).
    { rewrite <- N.lxor_lor, N.add_nocarry_lxor; auto;
        apply N.bits_inj; intro k; rewrite N.land_spec, N.bits_0;
        destruct (N.lt_ge_cases k (8 * N.of_nat (length l)));
        try (now rewrite N.shiftl_spec_low by lia);
        destruct (N.eq_dec (be l) 0) as [->|Hn];
        try (rewrite N.bits_0; now rewrite andb_false_r);
        rewrite (N.bits_above_log2 (be l));
        try (now rewrite andb_false_r);
        apply N.log2_lt_pow2 in Hb; lia. }
    rewrite E, N.lor_spec, N.shiftl_spec_high' by lia.
    replace (N.testbit (be l) _) with false.
    + rewrite orb_false_r. f_equal. lia.
    + symmetry. destruct (N.eq_dec (be l) 0) as [->|Hn]; [apply N.bits_0|].
      apply N.bits_above_log2. apply N.log2_lt_pow2 in Hb; lia.
  - assert (Hd : (i / 8 = S ((i - 8) / 8))%nat).
    { replace i with (i - 8 + 1 * 8)%nat at 1 by lia. rewrite Nat.div_add by lia. lia. }
    assert (Hm : (i mod 8 = (i - 8) mod 8)%nat).
    { replace i with (i - 8 + 1 * 8)%nat at 1 by lia. now rewrite Nat.mod_add by lia. }
    rewrite Hd, Hm. cbn [nth]. rewrite <- (IH (i - 8)%nat) by (auto; lia).
    rewrite <- N.shiftl_mul_pow2.
    replace (8 * S (length l) - 1 - i)%nat with (8 * length l - 1 - (i - 8))%nat by lia.
    set (k := N.of_nat (8 * length l - 1 - (i - 8))).
    assert (Hk : k < 8 * N.of_nat (length l)) by lia.
    rewrite <- (N.mod_pow2_bits_low (N.shiftl x _ + be l) (8 * N.of_nat (length l)) k Hk).
    rewrite N.shiftl_mul_pow2, N.add_comm, N.mod_add by (apply N.pow_nonzero; lia).
    now rewrite N.mod_small by lia.
Qed.
