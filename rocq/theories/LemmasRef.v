(** Reference counts *)
From Coq Require Import ZArith List Bool Arith Lia ZifyBool ZifyNat Permutation.
From Verif Require Import Base LemmasBase ModelRef SpecRef.
Import ListNotations.
Open Scope nat_scope.

Lemma nth_error_upd_eq {A} (l : list A) i v : i < length l -> nth_error (upd l i v) i = Some v.
Proof. revert i. induction l as [|x l IH]; intros [|i]; cbn; intros; try lia; auto. apply IH. lia. Qed.
Lemma nth_error_upd_neq {A} (l : list A) i j v : i <> j -> nth_error (upd l i v) j = nth_error l j.
Proof. revert i j. induction l as [|x l IH]; intros [|i] [|j]; cbn; intros; try lia; auto. Qed.
Lemma some_lt {A} (l : list A) i x : nth_error l i = Some x -> i < length l.
Proof. intros H. apply nth_error_Some. congruence. Qed.
Lemma nth_error_upd {A} (l : list A) i j v x : nth_error (upd l i v) j = Some x ->
  (i = j /\ x = v /\ i < length l) \/ (i <> j /\ nth_error l j = Some x).
Proof.
  intros H. destruct (Nat.eq_dec i j) as [<-|N].
  - left. pose proof (some_lt _ _ _ H) as L. rewrite upd_length in L. rewrite nth_error_upd_eq in H by auto. split; auto. split; [congruence|auto].
  - right. rewrite nth_error_upd_neq in H; auto.
Qed.

Notation cnt := (count_occ Nat.eq_dec).

(** References held by objects with a positive count *)
Definition part (c : cell) (p : nat) : nat := if (0 <? refs c)%Z then cnt (slots c) p else 0.
Fixpoint hcnt (h : heap) (p : nat) : nat :=
  match h with [] => 0 | c :: h' => part c p + hcnt h' p end.
Lemma hcnt_upd h p c c' q : nth_error h p = Some c -> hcnt (upd h p c') q + part c q = hcnt h q + part c' q.
Proof.
  revert p. induction h as [|x h IH]; intros [|p]; cbn; try discriminate.
  - intros [= ->]. lia.
  - intros H. specialize (IH _ H). lia.
Qed.
Lemma hcnt_app h h' q : hcnt (h ++ h') q = hcnt h q + hcnt h' q.
Proof. induction h as [|x h IH]; cbn; lia. Qed.
Lemma hcnt_pos h p c q : nth_error h p = Some c -> (0 < refs c)%Z -> In q (slots c) -> 0 < hcnt h q.
Proof.
  revert p. induction h as [|x h IH]; intros [|p]; cbn; try discriminate.
  - intros [= ->] R I1. unfold part. replace (0 <? refs c)%Z with true by lia. apply (count_occ_In Nat.eq_dec) in I1. lia.
  - intros H R I1. specialize (IH _ H R I1). lia.
Qed.

(** [own]: references outside of the heap; [D]: objects that are being freed *)
Record inv (rank : nat -> nat) (h : heap) (own D : list nat) : Prop := {
  i_rc : forall p c, nth_error h p = Some c -> refs c = Z.of_nat (cnt own p + hcnt h p);
  i_own : forall p, In p own -> p < length h;
  i_slots : forall p c q, nth_error h p = Some c -> In q (slots c) -> rank q < rank p /\ q < length h;
  i_free : forall p c, nth_error h p = Some c ->
             frees c = if (0 <? refs c)%Z then 0 else if in_dec Nat.eq_dec p D then 0 else 1;
  i_dead : forall p, In p D -> exists c, nth_error h p = Some c /\ refs c = 0%Z
}.

Lemma inv_perm rank h own own' D : Permutation own own' -> inv rank h own D -> inv rank h own' D.
Proof.
  intros P [A B C E F]. constructor; auto.
  - intros p c H. rewrite (A _ _ H). rewrite (Permutation_count_occ Nat.eq_dec) in P. now rewrite P.
  - intros p H. apply B. eapply Permutation_in; [symmetry|]; eauto.
Qed.

Lemma inv_live rank h own D p : inv rank h own D -> 0 < cnt own p + hcnt h p -> p < length h ->
  exists c, nth_error h p = Some c /\ (0 < refs c)%Z /\ frees c = 0 /\ access h p = Ok c.
Proof.
  intros V K L. destruct (nth_error h p) as [c|] eqn:E; [|apply nth_error_None in E; lia].
  exists c. split; auto. pose proof (i_rc _ _ _ _ V _ _ E) as R. assert (P : (0 < refs c)%Z) by lia. split; auto.
  pose proof (i_free _ _ _ _ V _ _ E) as F. replace (0 <? refs c)%Z with true in F by lia. split; auto.
  unfold access. now rewrite E, F.
Qed.

Lemma cnt_cons p q l : cnt (p :: l) q = (if Nat.eq_dec p q then 1 else 0) + cnt l q.
Proof. cbn. destruct (Nat.eq_dec p q); lia. Qed.
Lemma cnt_app l l' q : cnt (l ++ l') q = cnt l q + cnt l' q.
Proof. apply count_occ_app. Qed.

Section Unref.
  Variable rank : nat -> nat.
  Notation inv := (inv rank).

  Lemma dec_inv h own D p c : inv h (p :: own) D -> nth_error h p = Some c -> (0 < refs c - 1)%Z ->
    inv (upd h p (mkCell (refs c - 1) (slots c) (frees c))) own D.
  Proof.
    intros V E R. pose proof (some_lt _ _ _ E) as L. set (c' := mkCell _ _ _).
    assert (H : forall q, hcnt (upd h p c') q = hcnt h q).
    { intros q. pose proof (hcnt_upd h p c c' q E). unfold part in *. cbn [refs slots c'] in *.
      replace (0 <? refs c)%Z with true in * by lia. replace (0 <? refs c - 1)%Z with true in * by lia. lia. }
    constructor.
    - intros q x Q. rewrite H. apply nth_error_upd in Q as [(<- & -> & _)|(N & Q)].
      + pose proof (i_rc _ _ _ _ V _ _ E) as X. rewrite cnt_cons in X. destruct (Nat.eq_dec p p); [|congruence]. cbn [refs c']. lia.
      + pose proof (i_rc _ _ _ _ V _ _ Q) as X. rewrite cnt_cons in X. destruct (Nat.eq_dec p q); [congruence|]. lia.
    - intros q Q. rewrite upd_length. apply (i_own _ _ _ _ V). now right.
    - intros q x r Q. rewrite upd_length. apply nth_error_upd in Q as [(<- & -> & _)|(N & Q)]; cbn [slots c']; eapply (i_slots _ _ _ _ V); eauto.
    - intros q x Q. apply nth_error_upd in Q as [(<- & -> & _)|(N & Q)].
      + cbn [frees refs c']. replace (0 <? refs c - 1)%Z with true by lia. rewrite (i_free _ _ _ _ V _ _ E). now replace (0 <? refs c)%Z with true by lia.
      + exact (i_free _ _ _ _ V _ _ Q).
    - intros q Q. destruct (i_dead _ _ _ _ V _ Q) as (x & X & Z). assert (p <> q) by (intros ->; assert (x = c) by congruence; subst; lia).
      exists x. rewrite nth_error_upd_neq by auto. auto.
  Qed.

  Lemma die_inv h own D p c : inv h (p :: own) D -> nth_error h p = Some c -> (refs c - 1 <= 0)%Z ->
    inv (upd h p (mkCell (refs c - 1) (slots c) (frees c))) (slots c ++ own) (p :: D) /\ refs c = 1%Z /\ ~ In p D.
  Proof.
    intros V E R. pose proof (some_lt _ _ _ E) as L. set (c' := mkCell _ _ _).
    pose proof (i_rc _ _ _ _ V _ _ E) as X. rewrite cnt_cons in X. destruct (Nat.eq_dec p p); [|congruence].
    assert (R1 : refs c = 1%Z) by lia. assert (Nd : ~ In p D).
    { intros Q. destruct (i_dead _ _ _ _ V _ Q) as (x & Y & Z). assert (x = c) by congruence. subst. lia. }
    assert (H : forall q, hcnt (upd h p c') q + cnt (slots c) q = hcnt h q).
    { intros q. pose proof (hcnt_upd h p c c' q E) as Y. unfold part in Y. cbn [refs slots c'] in Y. rewrite R1 in Y. cbn in Y. lia. }
    split; [|auto]. constructor.
    - intros q x Q. rewrite cnt_app. specialize (H q). apply nth_error_upd in Q as [(<- & -> & _)|(N & Q)].
      + cbn [refs c']. lia.
      + pose proof (i_rc _ _ _ _ V _ _ Q) as Y. rewrite cnt_cons in Y. destruct (Nat.eq_dec p q); [congruence|]. lia.
    - intros q Q. rewrite upd_length. apply in_app_iff in Q as [Q|Q]; [eapply (i_slots _ _ _ _ V); eauto|]. apply (i_own _ _ _ _ V). now right.
    - intros q x r Q. rewrite upd_length. apply nth_error_upd in Q as [(<- & -> & _)|(N & Q)]; cbn [slots c']; eapply (i_slots _ _ _ _ V); eauto.
    - intros q x Q. apply nth_error_upd in Q as [(<- & -> & _)|(N & Q)].
      + cbn [frees refs c']. replace (0 <? refs c - 1)%Z with false by lia. rewrite (i_free _ _ _ _ V _ _ E). replace (0 <? refs c)%Z with true by lia.
        destruct (in_dec Nat.eq_dec p (p :: D)) as [|B]; [auto|]. exfalso. apply B. now left.
      + rewrite (i_free _ _ _ _ V _ _ Q). destruct (0 <? refs x)%Z; auto.
        destruct (in_dec Nat.eq_dec q D) as [I1|I1], (in_dec Nat.eq_dec q (p :: D)) as [I2|I2]; auto; exfalso; cbn [In] in I2; tauto.
    - intros q [<-|Q].
      + exists c'. split; [now apply nth_error_upd_eq|]. cbn [refs c']. lia.
      + destruct (i_dead _ _ _ _ V _ Q) as (x & Y & Z). exists x. rewrite nth_error_upd_neq by (intros ->; contradiction). auto.
  Qed.

  Lemma release_inv h own D p : inv h own (p :: D) -> ~ In p D -> exists h', release h p = Ok h' /\ inv h' own D.
  Proof.
    intros V Nd. destruct (i_dead _ _ _ _ V p (or_introl eq_refl)) as (c & E & Z). pose proof (some_lt _ _ _ E) as L.
    pose proof (i_free _ _ _ _ V _ _ E) as F. replace (0 <? refs c)%Z with false in F by lia.
    destruct (in_dec Nat.eq_dec p (p :: D)) as [_|B]; [|exfalso; apply B; now left].
    unfold release, access. rewrite E, F. cbn [Nat.eqb bind]. eexists. split; [reflexivity|]. set (c' := mkCell _ _ _).
    assert (H : forall q, hcnt (upd h p c') q = hcnt h q).
    { intros q. pose proof (hcnt_upd h p c c' q E) as Y. unfold part in Y. cbn [refs slots c'] in Y. lia. }
    constructor.
    - intros q x Q. rewrite H. apply nth_error_upd in Q as [(<- & -> & _)|(N & Q)]; [exact (i_rc _ _ _ _ V _ _ E)|exact (i_rc _ _ _ _ V _ _ Q)].
    - intros q Q. rewrite upd_length. now apply (i_own _ _ _ _ V).
    - intros q x r Q. rewrite upd_length. apply nth_error_upd in Q as [(<- & -> & _)|(N & Q)]; cbn [slots c']; eapply (i_slots _ _ _ _ V); eauto.
    - intros q x Q. apply nth_error_upd in Q as [(<- & -> & _)|(N & Q)].
      + cbn [frees refs c']. replace (0 <? refs c)%Z with false by lia. destruct (in_dec Nat.eq_dec p D); [contradiction|auto].
      + rewrite (i_free _ _ _ _ V _ _ Q). destruct (0 <? refs x)%Z; auto.
        destruct (in_dec Nat.eq_dec q D) as [I1|I1], (in_dec Nat.eq_dec q (p :: D)) as [I2|I2]; auto; exfalso; cbn [In] in I2; tauto.
    - intros q Q. destruct (i_dead _ _ _ _ V q (or_intror Q)) as (x & Y & Zx). exists x. rewrite nth_error_upd_neq by (intros ->; contradiction). auto.
  Qed.

  Lemma unref_ok fuel : forall h own D p, rank p < fuel -> inv h (p :: own) D ->
    exists h', unref fuel h p = Ok h' /\ inv h' own D /\ length h' = length h.
  Proof.
    induction fuel as [|fuel IH]; intros h own D p Rk V; [lia|].
    pose proof (i_own _ _ _ _ V p (or_introl eq_refl)) as L.
    destruct (inv_live _ _ _ _ p V) as (c & E & R & F & A); [rewrite cnt_cons; destruct (Nat.eq_dec p p); lia|auto|].
    cbn [unref]. rewrite A. cbn [bind]. destruct (Z.ltb_spec 0 (refs c - 1)) as [G|G].
    - eexists. split; [reflexivity|]. split; [now apply dec_inv|]. apply upd_length.
    - destruct (die_inv _ _ _ _ _ V E G) as (V1 & R1 & Nd). set (h1 := upd _ _ _) in *.
      assert (Q : forall ps h own, (forall q, In q ps -> rank q < fuel) -> inv h (ps ++ own) (p :: D) ->
        exists h', unref_all (unref fuel) h ps = Ok h' /\ inv h' own (p :: D) /\ length h' = length h).
      { clear -IH. induction ps as [|q ps IHp]; intros h own Rk V; [exists h; auto|]. cbn [unref_all].
        destruct (IH h (ps ++ own) (p :: D) q) as (h1 & E1 & V1 & L1); [apply Rk; now left|exact V|]. rewrite E1. cbn [bind].
        destruct (IHp h1 own) as (h2 & E2 & V2 & L2); [intros; apply Rk; now right|exact V1|]. exists h2. split; auto. split; auto. lia. }
      destruct (Q (slots c) h1 own) as (h2 & E2 & V2 & L2).
      { intros q Iq. pose proof (i_slots _ _ _ _ V _ _ _ E Iq). lia. }
      { exact V1. }
      rewrite E2. cbn [bind]. destruct (release_inv _ _ _ _ V2 Nd) as (h3 & E3 & V3). exists h3. split; auto. split; auto.
      unfold release in E3. destruct (access h2 p) as [a| | |]; cbn [bind] in E3; try discriminate. assert (h3 = upd h2 p (mkCell (refs a) (slots a) (S (frees a)))) as -> by congruence.
      rewrite upd_length, L2. apply upd_length.
  Qed.

  Lemma ref_ok h own D p : inv h own D -> p < length h -> 0 < cnt own p + hcnt h p -> (Z.of_nat (cnt own p + hcnt h p) < INT_MAX)%Z ->
    exists h', ref h p = Ok h' /\ inv h' (p :: own) D /\ length h' = length h.
  Proof.
    intros V L K B. destruct (inv_live _ _ _ _ p V K L) as (c & E & R & F & A). unfold ref. rewrite A. cbn [bind].
    pose proof (i_rc _ _ _ _ V _ _ E) as X. replace (refs c <? INT_MAX)%Z with true by lia. eexists. split; [reflexivity|].
    split; [|apply upd_length]. set (c' := mkCell _ _ _).
    assert (H : forall q, hcnt (upd h p c') q = hcnt h q).
    { intros q. pose proof (hcnt_upd h p c c' q E) as Y. unfold part in Y. cbn [refs slots c'] in Y.
      replace (0 <? refs c)%Z with true in Y by lia. replace (0 <? refs c + 1)%Z with true in Y by lia. lia. }
    constructor.
    - intros q x Q. rewrite H, cnt_cons. apply nth_error_upd in Q as [(<- & -> & _)|(N & Q)].
      + destruct (Nat.eq_dec p p); [|congruence]. cbn [refs c']. lia.
      + destruct (Nat.eq_dec p q); [congruence|]. exact (i_rc _ _ _ _ V _ _ Q).
    - intros q [<-|Q]; rewrite upd_length; auto. now apply (i_own _ _ _ _ V).
    - intros q x r Q. rewrite upd_length. apply nth_error_upd in Q as [(<- & -> & _)|(N & Q)]; cbn [slots c']; eapply (i_slots _ _ _ _ V); eauto.
    - intros q x Q. apply nth_error_upd in Q as [(<- & -> & _)|(N & Q)].
      + cbn [frees refs c']. replace (0 <? refs c + 1)%Z with true by lia. auto.
      + exact (i_free _ _ _ _ V _ _ Q).
    - intros q Q. destruct (i_dead _ _ _ _ V _ Q) as (x & Y & Z). assert (p <> q) by (intros ->; assert (x = c) by congruence; subst; lia).
      exists x. rewrite nth_error_upd_neq by auto. auto.
  Qed.

  (** Changing the slots of an object that is alive. *)
  Lemma slots_inv h own own' D x c l : inv h own D -> nth_error h x = Some c -> (0 < refs c)%Z ->
    (forall q, In q l -> rank q < rank x /\ q < length h) -> (forall q, In q own' -> q < length h) ->
    (forall q, cnt own' q + cnt l q = cnt own q + cnt (slots c) q) ->
    inv (upd h x (mkCell (refs c) l (frees c))) own' D.
  Proof.
    intros V E R Hl Ho Hc. set (c' := mkCell _ _ _). pose proof (some_lt _ _ _ E) as L.
    assert (H : forall q, hcnt (upd h x c') q + cnt (slots c) q = hcnt h q + cnt l q).
    { intros q. pose proof (hcnt_upd h x c c' q E) as Y. unfold part in Y. cbn [refs slots c'] in Y. replace (0 <? refs c)%Z with true in Y by lia. lia. }
    constructor.
    - intros q y Q. specialize (H q). specialize (Hc q). apply nth_error_upd in Q as [(<- & -> & _)|(N & Q)].
      + cbn [refs c']. rewrite (i_rc _ _ _ _ V _ _ E). lia.
      + rewrite (i_rc _ _ _ _ V _ _ Q). lia.
    - intros q Q. rewrite upd_length. auto.
    - intros q y r Q. rewrite upd_length. apply nth_error_upd in Q as [(<- & -> & _)|(N & Q)]; cbn [slots c']; auto. eapply (i_slots _ _ _ _ V); eauto.
    - intros q y Q. apply nth_error_upd in Q as [(<- & -> & _)|(N & Q)]; [exact (i_free _ _ _ _ V _ _ E)|exact (i_free _ _ _ _ V _ _ Q)].
    - intros q Q. destruct (i_dead _ _ _ _ V _ Q) as (y & Y & Z). assert (x <> q) by (intros ->; assert (y = c) by congruence; subst; lia).
      exists y. rewrite nth_error_upd_neq by auto. auto.
  Qed.
End Unref.

(** ** Callers *)
Lemma remove_one_perm p l : In p l -> Permutation l (p :: remove_one p l).
Proof.
  induction l as [|q l IH]; [intros []|]. cbn [remove_one]. intros I1. destruct (Nat.eqb_spec q p) as [->|N]; [reflexivity|].
  destruct I1 as [|I1]; [congruence|]. etransitivity; [apply perm_skip, IH, I1|apply perm_swap].
Qed.
Lemma remove_at_perm {A} i (l : list A) x : nth_error l i = Some x -> Permutation l (x :: remove_at i l).
Proof.
  intros H. unfold remove_at. apply nth_error_split in H as (l1 & l2 & -> & <-).
  rewrite firstn_app, firstn_all, Nat.sub_diag. cbn [firstn]. rewrite app_nil_r.
  rewrite skipn_app, skipn_all2 by lia. replace (S (length l1) - length l1) with 1 by lia. cbn [skipn app].
  symmetry. apply Permutation_middle.
Qed.
Lemma insert_at_perm {A} i (l : list A) x : Permutation (insert_at i x l) (x :: l).
Proof. unfold insert_at. rewrite <- Permutation_middle. now rewrite firstn_skipn. Qed.
Lemma perm_cnt l l' : Permutation l l' -> forall q, cnt l q = cnt l' q.
Proof. intros P. now apply (Permutation_count_occ Nat.eq_dec). Qed.

Definition sinv (rank : nat -> nat) (s : rstate) : Prop := inv rank (rs_heap s) (rs_own s) [].

Lemma held_hcnt rank s p : sinv rank s -> held (rs_heap s) p = hcnt (rs_heap s) p.
Proof.
  intros V. assert (H : forall q c, nth_error (rs_heap s) q = Some c -> frees c = if (0 <? refs c)%Z then 0 else 1).
  { intros q c E. rewrite (i_free _ _ _ _ V _ _ E). destruct (0 <? refs c)%Z; auto. }
  revert H. generalize (rs_heap s). clear. induction h as [|c h IH]; intros H; [reflexivity|]. cbn [held hcnt].
  rewrite IH by (intros q x E; apply (H (S q)); auto). f_equal. unfold part. rewrite (H 0 c eq_refl). destruct (0 <? refs c)%Z; auto.
Qed.

Lemma reach_live rank s p : sinv rank s -> reach s p -> 0 < cnt (rs_own s) p + hcnt (rs_heap s) p /\ p < length (rs_heap s).
Proof.
  intros V. induction 1 as [p I1|x c p R [K L] E I1].
  - split; [|now apply (i_own _ _ _ _ V)]. apply (count_occ_In Nat.eq_dec) in I1. lia.
  - destruct (inv_live _ _ _ _ _ V K L) as (c' & E' & P & _). assert (c' = c) by congruence. subst.
    pose proof (hcnt_pos _ _ _ _ E P I1). split; [lia|]. eapply (i_slots _ _ _ _ V); eauto.
Qed.

Lemma op_ok rank fuel s o : (forall p, rank p < fuel) -> sinv rank s -> lawful_op rank s o ->
  exists s', do_op fuel s o = Ok s' /\ sinv rank s'.
Proof.
  intros Rk V Lw. unfold sinv in *. destruct s as [h own]. cbn [rs_heap rs_own] in *.
  assert (Few : forall p, few (mkRS h own) p -> (Z.of_nat (cnt own p + hcnt h p) < INT_MAX)%Z).
  { intros p F. unfold few, references in F. cbn [rs_heap rs_own] in F. pose proof (held_hcnt rank (mkRS h own) p V) as X. cbn [rs_heap] in X. rewrite <- X. exact F. }
  destruct o as [|p|p|x i|x p i|x i]; cbn [do_op lawful_op rs_heap rs_own] in *.
  - eexists. split; [reflexivity|]. cbn [rs_heap rs_own].
    assert (Z0 : hcnt h (length h) = 0 /\ cnt own (length h) = 0).
    { split.
      - assert (X : forall c, In c h -> ~ In (length h) (slots c)).
        { intros c Ic Is. apply In_nth_error in Ic as (q & E). pose proof (i_slots _ _ _ _ V _ _ _ E Is). lia. }
        revert X. generalize (length h). clear. induction h as [|c h IH]; intros n X; [reflexivity|]. cbn [hcnt]. rewrite IH by (intros; apply X; now right).
        unfold part. destruct (0 <? refs c)%Z; auto. rewrite (proj1 (count_occ_not_In Nat.eq_dec _ _)); auto. apply X. now left.
      - apply (count_occ_not_In Nat.eq_dec). intros I1. pose proof (i_own _ _ _ _ V _ I1). lia. }
    assert (Nth : forall q x, nth_error (h ++ [mkCell 1 [] 0]) q = Some x -> nth_error h q = Some x \/ (q = length h /\ x = mkCell 1 [] 0)).
    { intros q x Q. destruct (Nat.lt_ge_cases q (length h)); [left; now rewrite nth_error_app1 in Q|right].
      rewrite nth_error_app2 in Q by auto. destruct (q - length h) as [|[|]] eqn:D; cbn in Q; try discriminate. split; [lia|congruence]. }
    assert (Hc : forall q, hcnt (h ++ [mkCell 1 [] 0]) q = hcnt h q) by (intros q; rewrite hcnt_app; cbn; lia).
    constructor.
    + intros q x Q. rewrite Hc, cnt_cons. apply Nth in Q as [Q|[-> ->]].
      * pose proof (some_lt _ _ _ Q). destruct (Nat.eq_dec (length h) q); [lia|]. exact (i_rc _ _ _ _ V _ _ Q).
      * destruct Z0 as [-> ->]. destruct (Nat.eq_dec (length h) (length h)); [reflexivity|congruence].
    + intros q Q. rewrite app_length. cbn [length]. destruct Q as [<-|Q]; [lia|]. pose proof (i_own _ _ _ _ V _ Q). lia.
    + intros q x r Q I1. rewrite app_length. cbn [length]. apply Nth in Q as [Q|[-> ->]]; [|destruct I1].
      pose proof (i_slots _ _ _ _ V _ _ _ Q I1). lia.
    + intros q x Q. apply Nth in Q as [Q|[-> ->]]; [exact (i_free _ _ _ _ V _ _ Q)|reflexivity].
    + intros q [].
  - destruct Lw as [R F]. destruct (reach_live rank (mkRS h own) _ V R) as [K L]. cbn [rs_heap rs_own] in *.
    destruct (ref_ok _ _ _ _ _ V L K (Few _ F)) as (h' & E & V' & _). rewrite E. cbn [bind]. eauto.
  - assert (V1 : inv rank h (p :: remove_one p own) []) by (eapply inv_perm; [now apply remove_one_perm|exact V]).
    destruct (unref_ok rank fuel _ _ _ _ (Rk p) V1) as (h' & E & V' & _). rewrite E. cbn [bind]. eauto.
  - destruct Lw as [R F]. destruct (reach_live rank (mkRS h own) _ V R) as [K L]. cbn [rs_heap rs_own] in *.
    destruct (inv_live _ _ _ _ _ V K L) as (c & E & P & Fr & A). rewrite A. cbn [bind]. destruct (nth_error (slots c) i) as [p|] eqn:N; [|eauto].
    assert (Rp : reach (mkRS h own) p) by (eapply r_slot; [exact R|exact E|eapply nth_error_In; eauto]).
    destruct (reach_live rank (mkRS h own) _ V Rp) as [Kp Lp]. cbn [rs_heap rs_own] in *.
    destruct (ref_ok _ _ _ _ _ V Lp Kp (Few _ (F _ _ E N))) as (h' & E' & V' & _). rewrite E'. cbn [bind]. eauto.
  - destruct Lw as (R & I1 & Rr). destruct (reach_live rank (mkRS h own) _ V R) as [K L]. cbn [rs_heap rs_own] in *.
    destruct (inv_live _ _ _ _ _ V K L) as (c & E & P & Fr & A). rewrite A. cbn [bind]. eexists. split; [reflexivity|]. cbn [rs_heap rs_own].
    eapply slots_inv; eauto.
    + intros q Q. apply (Permutation_in _ (insert_at_perm i (slots c) p)) in Q as [<-|Q]; [split; [auto|now apply (i_own _ _ _ _ V)]|]. eapply (i_slots _ _ _ _ V); eauto.
    + intros q Q. apply (i_own _ _ _ _ V). eapply Permutation_in; [symmetry; now apply (remove_one_perm p)|now right].
    + intros q. rewrite (perm_cnt _ _ (insert_at_perm i (slots c) p)), (perm_cnt _ _ (remove_one_perm p own I1)), !cnt_cons. lia.
  - destruct (reach_live rank (mkRS h own) _ V Lw) as [K L]. cbn [rs_heap rs_own] in *.
    destruct (inv_live _ _ _ _ _ V K L) as (c & E & P & Fr & A). rewrite A. cbn [bind]. destruct (nth_error (slots c) i) as [p|] eqn:N; [|eauto].
    eexists. split; [reflexivity|]. cbn [rs_heap rs_own]. pose proof (remove_at_perm _ _ _ N) as Pm.
    eapply slots_inv; eauto.
    + intros q Q. eapply (i_slots _ _ _ _ V); eauto. eapply Permutation_in; [symmetry; exact Pm|now right].
    + intros q [<-|Q]; [|now apply (i_own _ _ _ _ V)]. eapply (i_slots _ _ _ _ V); eauto. eapply nth_error_In; eauto.
    + intros q. rewrite (perm_cnt _ _ Pm), !cnt_cons. lia.
Qed.

Lemma ops_ok rank fuel : (forall p, rank p < fuel) -> forall os s, sinv rank s -> lawful rank fuel s os ->
  exists s', do_ops fuel s os = Ok s' /\ sinv rank s'.
Proof.
  intros Rk. induction os as [|o os IH]; intros s V L; cbn [do_ops]; [eauto|]. destruct L as [Lo L].
  destruct (op_ok rank fuel s o Rk V Lo) as (s1 & E & V1). rewrite E. cbn [bind]. apply IH; auto.
Qed.
Lemma nothing_inv rank : sinv rank nothing.
Proof. constructor; cbn; try (intros [|?]; discriminate); try tauto. Qed.

(** ** What it means *)
Lemma lawful_run rank fuel os : (forall p, rank p < fuel) -> lawful rank fuel nothing os ->
  exists s, do_ops fuel nothing os = Ok s /\
    (forall p, reach s p -> exists c, nth_error (rs_heap s) p = Some c /\ frees c = 0) /\
    (forall p c, nth_error (rs_heap s) p = Some c ->
       (frees c = 0 /\ refs c = Z.of_nat (references s p) /\ 0 < references s p) \/ (frees c = 1 /\ references s p = 0)).
Proof.
  intros Rk L. destruct (ops_ok rank fuel Rk os nothing (nothing_inv rank) L) as (s & E & V). exists s. split; auto. split.
  - intros p R. destruct (reach_live rank s p V R) as [K Lp]. destruct (inv_live _ _ _ _ _ V K Lp) as (c & Ec & _ & F & _). eauto.
  - intros p c Ec. pose proof (i_rc _ _ _ _ V _ _ Ec) as R. pose proof (i_free _ _ _ _ V _ _ Ec) as F. unfold references.
    rewrite (held_hcnt rank s p V). cbn [in_dec] in F. destruct (Z.ltb_spec 0 (refs c)); [left|right]; split; auto; lia.
Qed.

(** Without cycles: if the caller has dropped all references, everything has been released. *)
Lemma no_leak rank fuel os s : (forall p, rank p < fuel) -> lawful rank fuel nothing os -> do_ops fuel nothing os = Ok s -> rs_own s = [] ->
  forall p c, nth_error (rs_heap s) p = Some c -> frees c = 1.
Proof.
  intros Rk L E O. destruct (ops_ok rank fuel Rk os nothing (nothing_inv rank) L) as (s' & E' & V). assert (s' = s) by congruence. subst s'.
  assert (D : forall k p c, fuel - rank p <= k -> nth_error (rs_heap s) p = Some c -> (refs c <= 0)%Z).
  { induction k as [|k IH]; intros p c K Ec; [specialize (Rk p); lia|].
    rewrite (i_rc _ _ _ _ V _ _ Ec), O. cbn [count_occ Nat.add].
    assert (Z0 : forall q x, nth_error (rs_heap s) q = Some x -> part x p = 0).
    { intros q x Ex. unfold part. destruct (Z.ltb_spec 0 (refs x)) as [G|G]; auto. destruct (in_dec Nat.eq_dec p (slots x)) as [I1|I1].
      - pose proof (i_slots _ _ _ _ V _ _ _ Ex I1). assert (refs x <= 0)%Z by (apply (IH q); [pose proof (Rk p); lia|auto]). lia.
      - now apply (count_occ_not_In Nat.eq_dec). }
    revert Z0. generalize (rs_heap s). clear. induction h as [|x h IH]; intros Z0; cbn [hcnt]; [lia|]. rewrite (Z0 0 x eq_refl).
    apply IH. intros q y E. apply (Z0 (S q)). auto. }
  intros p c Ec. pose proof (i_free _ _ _ _ V _ _ Ec) as F. assert (refs c <= 0)%Z by (eapply D; eauto).
  replace (0 <? refs c)%Z with false in F by lia. exact F.
Qed.

(** ** Functions of the library *)
Lemma lawful_app rank fuel : forall a s b, lawful rank fuel s a -> (forall s', do_ops fuel s a = Ok s' -> lawful rank fuel s' b) ->
  lawful rank fuel s (a ++ b).
Proof.
  induction a as [|o a IH]; intros s b La Lb; cbn [app lawful]; [now apply Lb|]. destruct La as [Lo La]. split; auto.
  intros s1 E. apply IH; [now apply La|]. intros s2 E2. apply Lb. cbn [do_ops]. now rewrite E.
Qed.
Lemma ops_app fuel : forall a s b, do_ops fuel s (a ++ b) = do s1 <- do_ops fuel s a; do_ops fuel s1 b.
Proof.
  induction a as [|o a IH]; intros s b; [reflexivity|]. cbn [app do_ops]. destruct (do_op fuel s o); cbn [bind]; auto.
Qed.

Definition grows (h h' : heap) : Prop :=
  forall x c, nth_error h x = Some c -> exists c', nth_error h' x = Some c' /\ incl (slots c) (slots c').
Lemma reach_mono s s' p : incl (rs_own s) (rs_own s') -> grows (rs_heap s) (rs_heap s') -> reach s p -> reach s' p.
Proof.
  intros O G. induction 1 as [p I1|x c p R IH E I1]; [apply r_own; auto|]. destruct (G _ _ E) as (c' & E' & Is).
  eapply r_slot; eauto.
Qed.

Lemma ref_shape h p h' : ref h p = Ok h' -> exists c, nth_error h p = Some c /\ frees c = 0 /\ h' = upd h p (mkCell (refs c + 1) (slots c) (frees c)).
Proof.
  unfold ref, access. destruct (nth_error h p) as [c|]; cbn [bind]; try discriminate. destruct (Nat.eqb_spec (frees c) 0) as [F|F]; cbn [bind]; try discriminate.
  destruct (_ <? _)%Z; try discriminate. intros E. exists c. split; auto. split; auto. congruence.
Qed.
Lemma ref_grows h p h' : ref h p = Ok h' -> grows h h'.
Proof.
  intros E. apply ref_shape in E as (c & E & _ & ->). intros x y Y. destruct (Nat.eq_dec p x) as [<-|N].
  - eexists. split; [apply nth_error_upd_eq; eapply some_lt; eauto|]. cbn [slots]. assert (y = c) by congruence. subst. apply incl_refl.
  - exists y. rewrite nth_error_upd_neq by auto. split; auto. apply incl_refl.
Qed.

(** What unref does to the objects that are left *)
Definition keeps (h h' : heap) : Prop :=
  length h' = length h /\
  forall x c', nth_error h' x = Some c' -> exists c, nth_error h x = Some c /\ slots c' = slots c /\ (refs c' <= refs c)%Z /\ frees c <= frees c'.
Lemma keeps_refl h : keeps h h.
Proof. split; auto. intros x c E. exists c. split; auto. split; auto. split; lia. Qed.
Lemma keeps_trans a b c : keeps a b -> keeps b c -> keeps a c.
Proof.
  intros [L1 A] [L2 B]. split; [lia|]. intros x z Z. destruct (B _ _ Z) as (y & Y & S1 & R1 & F1). destruct (A _ _ Y) as (w & W & S2 & R2 & F2).
  exists w. split; auto. split; [congruence|]. split; lia.
Qed.
Lemma keeps_upd h p c c' : nth_error h p = Some c -> slots c' = slots c -> (refs c' <= refs c)%Z -> frees c <= frees c' -> keeps h (upd h p c').
Proof.
  intros E Sl R F. split; [apply upd_length|]. intros x y Y. apply nth_error_upd in Y as [(<- & -> & _)|(N & Y)]; [exists c; auto|].
  exists y. split; auto. split; auto. split; lia.
Qed.
Lemma unref_keeps fuel : forall h p h', unref fuel h p = Ok h' -> keeps h h'.
Proof.
  induction fuel as [|fuel IH]; intros h p h'; [discriminate|]. cbn [unref]. unfold access. destruct (nth_error h p) as [c|] eqn:E; cbn [bind]; try discriminate.
  destruct (frees c =? 0); cbn [bind]; try discriminate.
  assert (K1 : keeps h (upd h p (mkCell (refs c - 1) (slots c) (frees c)))) by (eapply keeps_upd; eauto; cbn; lia).
  destruct (0 <? refs c - 1)%Z; [intros Q; assert (h' = upd h p (mkCell (refs c - 1) (slots c) (frees c))) as -> by congruence; exact K1|].
  set (h1 := upd _ _ _) in *.
  assert (A : forall ps h h', unref_all (unref fuel) h ps = Ok h' -> keeps h h').
  { induction ps as [|q ps IHp]; intros a b; cbn [unref_all]; [intros Q; assert (b = a) as -> by congruence; apply keeps_refl|].
    destruct (unref fuel a q) as [a1| | |] eqn:Eq; cbn [bind]; try discriminate. intros Q. eapply keeps_trans; eauto. }
  destruct (unref_all _ h1 _) as [h2| | |] eqn:E2; cbn [bind]; try discriminate. intros Q. apply (keeps_trans _ _ _ K1). apply (keeps_trans _ _ _ (A _ _ _ E2)).
  unfold release, access in Q. destruct (nth_error h2 p) as [d|] eqn:Ed; cbn [bind] in Q; try discriminate.
  destruct (frees d =? 0); cbn [bind] in Q; try discriminate. assert (h' = upd h2 p (mkCell (refs d) (slots d) (S (frees d)))) as -> by congruence.
  eapply keeps_upd; eauto; cbn; lia.
Qed.

Lemma few_hcnt rank s p : sinv rank s -> few s p <-> (Z.of_nat (cnt (rs_own s) p + hcnt (rs_heap s) p) < INT_MAX)%Z.
Proof. intros V. unfold few, references. now rewrite (held_hcnt rank s p V). Qed.

Lemma new_few s p : few s p -> few (mkRS (rs_heap s ++ [mkCell 1 [] 0]) (length (rs_heap s) :: rs_own s)) p \/ p = length (rs_heap s).
Proof.
  intros F. destruct (Nat.eq_dec (length (rs_heap s)) p) as [->|N]; [now right|left]. unfold few, references in *. cbn [rs_heap rs_own]. rewrite cnt_cons.
  destruct (Nat.eq_dec (length (rs_heap s)) p); [congruence|]. assert (X : forall h, held (h ++ [mkCell 1 [] 0]) p = held h p).
  { induction h as [|c h IH]; cbn; [auto|]. now rewrite IH. } rewrite X. cbn. exact F.
Qed.

Lemma object_new_ok rank fuel s c : (forall p, rank p < fuel) -> sinv rank s -> reach s c -> few s c -> rank c < rank (length (rs_heap s)) ->
  let n := length (rs_heap s) in
  lawful rank fuel s (object_new n c) /\
  forall s', do_ops fuel s (object_new n c) = Ok s' -> rs_own s' = n :: rs_own s.
Proof.
  intros Rk V R F Rc n. destruct (reach_live _ _ _ V R) as [_ Lc].
  assert (Nc : n <> c) by (subst n; lia).
  unfold object_new. split.
  - cbn [lawful]. split; [exact Logic.I|]. intros s1 E1. cbn [do_op] in E1. assert (s1 = mkRS (rs_heap s ++ [mkCell 1 [] 0]) (n :: rs_own s)) as -> by (unfold n; congruence). clear E1.
    assert (R1 : reach (mkRS (rs_heap s ++ [mkCell 1 [] 0]) (n :: rs_own s)) c).
    { eapply reach_mono; [| |exact R]; cbn [rs_own rs_heap]; [intros q Q; now right|]. intros x y Y. exists y. split; [|apply incl_refl].
      rewrite nth_error_app1; auto. eapply some_lt; eauto. }
    split.
    { split; auto. destruct (new_few s c F) as [X|X]; [exact X|subst n; congruence]. }
    intros s2 E2. cbn [do_op rs_heap rs_own] in E2. destruct (ref _ c) as [h2| | |]; cbn [bind] in E2; try discriminate.
    assert (s2 = mkRS h2 (c :: n :: rs_own s)) as -> by congruence. cbn [lawful_op]. split; [|auto]. split; [apply r_own; cbn; auto|]. split; [cbn; auto|]. exact Rc.
  - intros s'. cbn [do_ops do_op bind rs_heap rs_own]. fold n. destruct (ref _ c) as [h2| | |]; cbn [bind rs_heap rs_own]; try discriminate.
    destruct (access h2 n) as [y| | |]; cbn [bind rs_heap rs_own]; try discriminate. cbn [remove_one]. rewrite Nat.eqb_refl. intros Q.
    rewrite <- (f_equal (fun o => match o with Ok s => rs_own s | _ => [] end) Q). reflexivity.
Qed.

Lemma list_push_ok rank fuel s l x i : sinv rank s -> reach s l -> reach s x -> few s x -> rank x < rank l ->
  lawful rank fuel s (list_push l x i) /\
  forall s', do_ops fuel s (list_push l x i) = Ok s' -> rs_own s' = rs_own s /\
    exists c c', nth_error (rs_heap s) l = Some c /\ nth_error (rs_heap s') l = Some c' /\ slots c' = insert_at i x (slots c).
Proof.
  intros V Rl Rx F Rk. unfold list_push. split.
  - cbn [lawful]. split; [split; auto|]. intros s1 E1. cbn [do_op] in E1. destruct (ref _ x) as [h1| | |] eqn:E; cbn [bind] in E1; try discriminate.
    assert (s1 = mkRS h1 (x :: rs_own s)) as -> by congruence. cbn [lawful_op rs_own]. split; [|auto]. split; [|split; [now left|auto]].
    eapply reach_mono; [| |exact Rl]; cbn [rs_own rs_heap]; [intros q Q; now right|eapply ref_grows; eauto].
  - intros s'. cbn [do_ops do_op bind]. destruct (ref _ x) as [h1| | |] eqn:E; cbn [bind rs_heap rs_own]; try discriminate.
    apply ref_shape in E as (cx & Ex & _ & ->). assert (N : l <> x) by (intros ->; lia).
    unfold access. rewrite nth_error_upd_neq by auto. destruct (nth_error (rs_heap s) l) as [c|] eqn:El; cbn [bind]; try discriminate.
    destruct (frees c =? 0); cbn [bind]; try discriminate. cbn [remove_one]. rewrite Nat.eqb_refl. intros Q.
    match type of Q with Ok ?a = Ok ?b => assert (b = a) as -> by congruence end. cbn [rs_heap rs_own]. split; auto.
    exists c. eexists. split; [auto|]. split; [apply nth_error_upd_eq; rewrite upd_length; eapply some_lt; eauto|]. reflexivity.
Qed.

Lemma list_remove_ok rank fuel s l x i c : sinv rank s -> reach s l -> nth_error (rs_heap s) l = Some c -> nth_error (slots c) i = Some x ->
  lawful rank fuel s (list_remove l x i) /\
  forall s', do_ops fuel s (list_remove l x i) = Ok s' -> rs_own s' = rs_own s /\
    exists c', nth_error (rs_heap s') l = Some c' /\ slots c' = remove_at i (slots c).
Proof.
  intros V Rl El Ei. unfold list_remove. destruct (reach_live _ _ _ V Rl) as [K L].
  destruct (inv_live _ _ _ _ _ V K L) as (c0 & E0 & P & Fr & A). assert (c0 = c) by congruence. subst c0.
  pose proof (some_lt _ _ _ El) as Ll. split.
  - cbn [lawful do_op]. split; [exact Rl|]. rewrite A. cbn [bind]. rewrite Ei. intros s1 E1.
    match type of E1 with Ok ?a = Ok ?b => assert (b = a) as -> by congruence end. cbn [lawful_op rs_own]. split; [now left|auto].
  - intros s'. cbn [do_ops do_op]. rewrite A. cbn [bind]. rewrite Ei. cbn [bind rs_heap rs_own].
    destruct (unref fuel _ x) as [h2| | |] eqn:E2; cbn [bind rs_heap rs_own]; try discriminate. cbn [remove_one]. rewrite Nat.eqb_refl. intros Q.
    match type of Q with Ok ?a = Ok ?b => assert (b = a) as -> by congruence end. cbn [rs_heap rs_own]. split; auto.
    apply unref_keeps in E2 as [L2 K2]. rewrite upd_length in L2. destruct (nth_error h2 l) as [c'|] eqn:E'; [|apply nth_error_None in E'; lia].
    destruct (K2 _ _ E') as (y & Y & Sl & _). rewrite nth_error_upd_eq in Y by auto. assert (y = mkCell (refs c) (remove_at i (slots c)) (frees c)) by congruence.
    subst y. exists c'. split; auto.
Qed.

Lemma remove_at_0 {A} (x : A) l : remove_at 0 (x :: l) = l.
Proof. reflexivity. Qed.
Lemma list_clear_ok rank fuel l rest : (forall p, rank p < fuel) -> forall xs s c, sinv rank s -> In l (rs_own s) -> nth_error (rs_heap s) l = Some c -> slots c = xs ++ rest ->
  lawful rank fuel s (list_clear l xs) /\
  forall s', do_ops fuel s (list_clear l xs) = Ok s' -> rs_own s' = rs_own s /\
    exists c', nth_error (rs_heap s') l = Some c' /\ slots c' = rest.
Proof.
  intros Rk. induction xs as [|x xs IH]; intros s c V Il El Es.
  - split; [exact Logic.I|]. intros s' Q. cbn in Q. assert (s' = s) as -> by congruence. split; auto. exists c. auto.
  - change (list_clear l (x :: xs)) with (list_remove l x 0 ++ list_clear l xs).
    destruct (list_remove_ok rank fuel s l x 0 c V (r_own _ _ Il) El) as [L1 P1]; [now rewrite Es|].
    destruct (ops_ok rank fuel Rk _ s V L1) as (s1 & E1 & V1). destruct (P1 s1 E1) as (O1 & c1 & Ec1 & Sl1).
    rewrite Es in Sl1. cbn [app] in Sl1. rewrite remove_at_0 in Sl1. rewrite <- O1 in Il. destruct (IH s1 c1 V1 Il Ec1 Sl1) as [L2 P2].
    split.
    + apply lawful_app; auto. intros s1' E1'. assert (s1' = s1) as -> by congruence. exact L2.
    + intros s' Q. rewrite ops_app, E1 in Q. cbn [bind] in Q. destruct (P2 s' Q) as (O2 & X). split; [congruence|auto].
Qed.

Lemma set_list_ok rank fuel s e new i old c : (forall p, rank p < fuel) -> sinv rank s -> In e (rs_own s) -> In new (rs_own s) -> few s new -> rank new < rank e ->
  nth_error (rs_heap s) e = Some c -> match old with Some o => nth_error (slots c) i = Some o | None => True end ->
  lawful rank fuel s (set_list e new i old) /\
  forall s', do_ops fuel s (set_list e new i old) = Ok s' -> rs_own s' = rs_own s /\
    exists c', nth_error (rs_heap s') e = Some c' /\
      slots c' = insert_at i new (match old with Some _ => remove_at i (slots c) | None => slots c end).
Proof.
  intros Rk V Ie In1 F Rn Ec Eo. unfold set_list. destruct old as [o|].
  - change [Take e i; Unref o] with (list_remove e o i). change [Ref new; Give e new i] with (list_push e new i).
    destruct (list_remove_ok rank fuel s e o i c V (r_own _ _ Ie) Ec Eo) as [L1 P1].
    destruct (ops_ok rank fuel Rk _ s V L1) as (s1 & E1 & V1). destruct (P1 s1 E1) as (O1 & c1 & Ec1 & Sl1).
    assert (Ie1 : In e (rs_own s1)) by now rewrite O1. assert (In2 : In new (rs_own s1)) by now rewrite O1.
    assert (F1 : few s1 new).
    { apply (few_hcnt rank s1 new V1). apply (few_hcnt rank s new V) in F.
      destruct (reach_live _ _ _ V1 (r_own _ _ In2)) as [K L]. destruct (nth_error (rs_heap s1) new) as [d1|] eqn:Ed; [|apply nth_error_None in Ed; lia].
      rewrite <- (i_rc _ _ _ _ V1 _ _ Ed). assert (H : exists d, nth_error (rs_heap s) new = Some d /\ (refs d1 <= refs d)%Z).
      { revert E1 Ed. unfold list_remove. cbn [do_ops do_op]. destruct (access (rs_heap s) e) as [c0| | |] eqn:A; cbn [bind]; try discriminate.
        assert (c0 = c). { unfold access in A. rewrite Ec in A. destruct (frees c =? 0); congruence. } subst c0. rewrite Eo. cbn [bind rs_heap rs_own].
        destruct (unref fuel _ o) as [h2| | |] eqn:E2; cbn [bind rs_heap rs_own]; try discriminate. intros Q.
        match type of Q with Ok ?a = Ok ?b => assert (b = a) as -> by congruence end. cbn [rs_heap]. intros Ed.
        apply unref_keeps in E2 as [_ K2]. destruct (K2 _ _ Ed) as (y & Y & _ & Le & _). apply nth_error_upd in Y as [(<- & -> & _)|(N & Y)].
        - exists c. split; auto.
        - exists y. auto. }
      destruct H as (d & Edd & Le). rewrite (i_rc _ _ _ _ V _ _ Edd) in Le. lia. }
    destruct (list_push_ok rank fuel s1 e new i V1 (r_own _ _ Ie1) (r_own _ _ In2) F1 Rn) as [L2 P2]. split.
    + apply lawful_app; auto. intros s1' E1'. assert (s1' = s1) as -> by congruence. exact L2.
    + intros s' Q. rewrite ops_app, E1 in Q. cbn [bind] in Q. destruct (P2 s' Q) as (O2 & d & d' & Ed & Ed' & Sd). split; [congruence|].
      exists d'. split; auto. assert (d = c1) by congruence. subst. now rewrite Sd, Sl1.
  - cbn [app]. change [Ref new; Give e new i] with (list_push e new i).
    destruct (list_push_ok rank fuel s e new i V (r_own _ _ Ie) (r_own _ _ In1) F Rn) as [L2 P2]. split; auto.
    intros s' Q. destruct (P2 s' Q) as (O2 & d & d' & Ed & Ed' & Sd). split; auto. exists d'. split; auto. assert (d = c) by congruence. now subst.
Qed.

(** Anything that was true of a state holds after a lawful history. *)
Lemma history_inv rank fuel os s : (forall p, rank p < fuel) -> lawful rank fuel nothing os -> do_ops fuel nothing os = Ok s -> sinv rank s.
Proof. intros Rk L E. destruct (ops_ok rank fuel Rk os nothing (nothing_inv rank) L) as (s' & E' & V). assert (s' = s) by congruence. now subst. Qed.

(** Too many references *)
Lemma many_refs fuel p : forall n h own c, nth_error h p = Some c -> frees c = 0 -> (refs c <= INT_MAX < refs c + Z.of_nat n)%Z ->
  do_ops fuel (mkRS h own) (repeat (Ref p) n) = UB.
Proof.
  induction n as [|n IH]; intros h own c E F B; [lia|]. cbn [repeat do_ops do_op rs_heap rs_own]. unfold ref, access. rewrite E, F. cbn [Nat.eqb bind].
  destruct (Z.ltb_spec (refs c) INT_MAX) as [G|G]; cbn [bind]; [|reflexivity].
  eapply IH; [apply nth_error_upd_eq; eapply some_lt; eauto|auto|]. cbn [refs]. lia.
Qed.
Lemma overflow : exists n, do_ops 1 nothing (New :: repeat (Ref 0) n) = UB.
Proof.
  assert (H : exists n, Z.of_nat n = INT_MAX) by (exists (Z.to_nat INT_MAX); apply Z2Nat.id; unfold INT_MAX; lia).
  destruct H as (n & H). exists n.
  apply (many_refs 1 0 n [mkCell 1 [] 0] [0] (mkCell 1 [] 0) eq_refl eq_refl). cbn [refs]. unfold INT_MAX in *. lia.
Qed.

(** What the writer does with its lists *)
Lemma upd_same {A} (l : list A) p c : nth_error l p = Some c -> upd l p c = l.
Proof. revert p. induction l as [|a l IH]; intros [|p] E; cbn in *; try discriminate; [congruence|]. now rewrite IH. Qed.
Lemma upd_twice {A} (l : list A) p a b : upd (upd l p a) p b = upd l p b.
Proof. revert p. induction l as [|x l IH]; intros [|p]; cbn; auto. now rewrite IH. Qed.
Lemma visit_ok rank fuel s l c i x : 0 < fuel -> sinv rank s -> reach s l -> nth_error (rs_heap s) l = Some c -> nth_error (slots c) i = Some x -> few s x ->
  lawful rank fuel s [RefSlot l i; Unref x] /\ do_ops fuel s [RefSlot l i; Unref x] = Ok s.
Proof.
  intros Fu V Rl El Ei F. destruct (reach_live _ _ _ V Rl) as [K L].
  destruct (inv_live _ _ _ _ _ V K L) as (c0 & E0 & P & Fr & A). assert (c0 = c) by congruence. subst c0.
  assert (Rx : reach s x) by (eapply r_slot; eauto; eapply nth_error_In; eauto).
  destruct (reach_live _ _ _ V Rx) as [Kx Lx]. destruct (inv_live _ _ _ _ _ V Kx Lx) as (d & Ed & Pd & Fd & Ad).
  assert (Rf : ref (rs_heap s) x = Ok (upd (rs_heap s) x (mkCell (refs d + 1) (slots d) (frees d)))).
  { unfold ref. rewrite Ad. cbn [bind]. apply (few_hcnt rank s x V) in F. rewrite <- (i_rc _ _ _ _ V _ _ Ed) in F. destruct (Z.ltb_spec (refs d) INT_MAX); [reflexivity|lia]. }
  split.
  - cbn [lawful do_op]. rewrite A. cbn [bind]. rewrite Ei, Rf. cbn [bind]. split.
    + split; [exact Rl|]. intros c1 p E1 E2. assert (c1 = c) by congruence. subst. assert (p = x) by congruence. now subst.
    + intros s1 E1. match type of E1 with Ok ?a = Ok ?b => assert (b = a) as -> by congruence end. split; [now left|auto].
  - cbn [do_ops do_op]. rewrite A. cbn [bind]. rewrite Ei, Rf. cbn [bind rs_heap rs_own]. destruct fuel as [|fuel]; [lia|]. cbn [unref].
    unfold access at 1. rewrite nth_error_upd_eq by exact Lx. cbn [frees refs slots]. rewrite Fd. cbn [Nat.eqb bind refs slots frees].
    destruct (Z.ltb_spec 0 (refs d + 1 - 1)); [|lia]. cbn [bind rs_own rs_heap remove_one]. rewrite Nat.eqb_refl, upd_twice.
    replace (refs d + 1 - 1)%Z with (refs d) by lia. replace (mkCell (refs d) (slots d) 0) with d by (destruct d; cbn in *; congruence).
    rewrite upd_same by exact Ed. destruct s; reflexivity.
Qed.
Lemma write_as_ok rank fuel l c : 0 < fuel -> forall xs i s, sinv rank s -> reach s l -> nth_error (rs_heap s) l = Some c ->
  (forall k x, nth_error xs k = Some x -> nth_error (slots c) (i + k) = Some x /\ few s x) ->
  lawful rank fuel s (write_as l i xs) /\ do_ops fuel s (write_as l i xs) = Ok s.
Proof.
  intros Fu. induction xs as [|x xs IH]; intros i s V Rl El H; [split; [exact Logic.I|reflexivity]|].
  destruct (H 0 x eq_refl) as [Ei F]. rewrite Nat.add_0_r in Ei.
  destruct (visit_ok rank fuel s l c i x Fu V Rl El Ei F) as [L1 E1].
  destruct (IH (S i) s V Rl El) as [L2 E2]. { intros k y E. replace (S i + k) with (i + S k) by lia. now apply H. }
  change (write_as l i (x :: xs)) with ([RefSlot l i; Unref x] ++ write_as l (S i) xs). split.
  - apply lawful_app; [exact L1|]. intros s' E'. assert (s' = s) as -> by congruence. exact L2.
  - rewrite ops_app, E1. cbn [bind]. exact E2.
Qed.
Lemma write_countries_leak fuel l : forall n i s s' c, nth_error (rs_heap s) l = Some c -> i + n <= length (slots c) ->
  do_ops fuel s (map (RefSlot l) (seq i n)) = Ok s' -> rs_own s' = rev (firstn n (skipn i (slots c))) ++ rs_own s.
Proof.
  induction n as [|n IH]; intros i s s' c El Le E; [cbn in *; congruence|].
  cbn [seq map do_ops do_op] in E. unfold access in E. rewrite El in E. destruct (frees c =? 0); cbn [bind] in E; [|discriminate].
  destruct (nth_error (slots c) i) as [p|] eqn:Ei; [|apply nth_error_None in Ei; lia].
  destruct (ref (rs_heap s) p) as [h| | |] eqn:R; cbn [bind] in E; try discriminate.
  destruct (ref_grows _ _ _ R l c El) as (c' & El' & Sl).
  assert (Sl' : slots c' = slots c). { apply ref_shape in R as (d & Ed & _ & ->). apply nth_error_upd in El' as [(-> & -> & _)|(_ & Y)]; cbn [slots]; congruence. }
  apply (IH (S i) _ _ c') in E; [|exact El'|rewrite Sl'; lia]. rewrite E, Sl'. cbn [rs_own].
  assert (X : skipn i (slots c) = p :: skipn (S i) (slots c)).
  { clear -Ei. revert i Ei. induction (slots c) as [|a q IHq]; intros [|i] Ei; cbn in *; try discriminate; [congruence|]. now apply IHq. }
  rewrite X. cbn [firstn rev]. now rewrite <- app_assoc.
Qed.
