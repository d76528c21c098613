(** The specification vocabulary of SpecNetwork agrees with the one the proofs
    use. *)
From Coq Require Import NArith ZArith List Bool Arith Lia ZifyBool ZifyNat ZifyN.
From Verif Require Import Base LemmasBase ModelAddress LemmasAddress ModelCountryCode ModelNetwork
  LemmasNetwork SpecNetwork.
Import ListNotations.
Open Scope N_scope.

Lemma is_addr_wf a : is_addr a <-> wf a.
Proof. reflexivity. Qed.

Lemma is_ipv4_mapped v : is_ipv4 v <-> mappedb v = true.
Proof. rewrite mappedb_range. unfold is_ipv4. lia. Qed.

Lemma agree_iff p v w : (p <= 128)%nat -> v < 2 ^ 128 -> w < 2 ^ 128 ->
  agree p v w <-> v / blk p = w / blk p.
Proof.
  intros Hp Hv Hw. unfold blk. rewrite div_pow2_eq. split.
  - intros A i Hi. destruct (N.lt_ge_cases i 128) as [L|L].
    + specialize (A (127 - N.to_nat i)%nat ltac:(lia) Hp).
      replace (N.of_nat (127 - (127 - N.to_nat i))) with i in A by lia. exact A.
    + assert (Z : forall u, u < 2 ^ 128 -> N.testbit u i = false).
      { intros u Hu. rewrite <- (N.mod_small u (2 ^ 128)) by auto. apply N.mod_pow2_bits_high. lia. }
      now rewrite !Z.
  - intros A i Hi _. apply A. lia.
Qed.

Lemma member_inb n v : member n v <-> inb n v.
Proof. reflexivity. Qed.

Lemma cc_valid_iff a b : cc_is_valid (Some [a; b]) = true <-> 65 <= a <= 90 /\ 65 <= b <= 90 /\ a <> 88.
Proof.
  split; [apply cc_valid_nz|]. intros (H1 & H2 & H3). cbn.
  repeat match goal with |- context[?x <? ?y] => destruct (N.ltb_spec x y); try lia end.
  destruct (N.eqb_spec a 88); cbn; auto; lia.
Qed.

Lemma valid_net_wf n : valid_network n <-> net_wf n.
Proof.
  split.
  - intros [F L P A Fa P4 Cc As Fl].
    assert (Vf : val (n_first n) < 2 ^ 128) by (apply val_bound, F).
    assert (Vl : val (n_last n) < 2 ^ 128) by (apply val_bound, L).
    assert (A' : forall v, v < 2 ^ 128 -> inb n v <-> lo n / blk (n_prefix n) = v / blk (n_prefix n)).
    { intros v Hv. rewrite <- agree_iff; auto. }
    set (b := blk (n_prefix n)) in *.
    assert (B0 : 0 < b) by apply blk_pos.
    assert (Bm : 2 ^ 128 = 2 ^ N.of_nat (n_prefix n) * b).
    { subst b. unfold blk. rewrite <- N.pow_add_r. f_equal. lia. }
    assert (Q : lo n / b < 2 ^ N.of_nat (n_prefix n)).
    { apply N.div_lt_upper_bound; [lia|]. rewrite N.mul_comm, <- Bm. exact Vf. }
    set (q := lo n / b) in *.
    assert (Fb : q * b < 2 ^ 128) by (rewrite Bm; apply N.mul_lt_mono_pos_r; auto).
    assert (Lb : q * b + (b - 1) < 2 ^ 128).
    { rewrite Bm. assert ((q + 1) * b <= 2 ^ N.of_nat (n_prefix n) * b) by (apply N.mul_le_mono_r; lia). lia. }
    assert (Dm := N.div_mod (lo n) b ltac:(lia)). assert (Ml := N.mod_lt (lo n) b ltac:(lia)). fold q in Dm.
    assert (I1 : inb n (lo n)) by (apply A'; auto).
    assert (I2 : inb n (q * b)).
    { apply A'; auto. rewrite N.div_mul by lia. auto. }
    assert (I3 : inb n (q * b + (b - 1))).
    { apply A'; auto. rewrite N.div_add_l by lia. rewrite (N.div_small (b - 1)) by lia. lia. }
    assert (I4 : q = hi n / b).
    { apply A'; auto. destruct I1. split; [auto|apply N.le_refl]. }
    assert (Dh := N.div_mod (hi n) b ltac:(lia)). assert (Mh := N.mod_lt (hi n) b ltac:(lia)).
    rewrite <- I4 in Dh. unfold inb in *.
    constructor; auto.
    + unfold first_of. fold b q. lia.
    + unfold last_of. fold b q. lia.
    + unfold lo. rewrite (is_ipv4_mapped (num (n_first n))) in Fa. unfold num, val in *.
      destruct (mappedb (be (n_first n))), (n_family n); auto; exfalso.
      * assert (AF_INET6 = AF_INET) by now apply Fa. discriminate.
      * assert (false = true) by now apply Fa. discriminate.
    + intros M. apply P4, Fa. now apply is_ipv4_mapped.
    + destruct Cc as [Cc|Cc]; [now left|]. right. now apply cc_valid_iff.
  - intros W. pose proof (lo_bound n W) as Lb. pose proof W as [F L P Lo Hi Fa P4 Cc As Fl].
    constructor; auto.
    + intros v Hv. rewrite agree_iff by auto. rewrite member_inb, inb_iff by auto. unfold num, lo, val. lia.
    + rewrite is_ipv4_mapped. fold (lo n). unfold num. rewrite Fa.
      unfold lo, val. destruct (mappedb (be (n_first n))); intuition congruence.
    + intros G. apply P4. rewrite Fa in G. now destruct (mappedb (lo n)).
    + destruct Cc as [Cc|Cc]; [now left|]. right. now apply cc_valid_iff.
Qed.
