(** Lemmas about ModelPyObj *)
From Coq Require Import ZArith List Bool Arith Lia Permutation ZifyBool ZifyNat.
From Verif Require Import Base LemmasBase ModelRef SpecRef LemmasRef ModelPyObj SpecPyObj.
Import ListNotations.
Open Scope nat_scope.

Section Tri.
  Variable rank : nat -> nat.
  Hypothesis Rk : forall p, rank p < depth.

  (** A state with [n] objects, the references [own] of the caller, no counter above [B],
      and known slots of some objects *)
  Record at_ (B n : nat) (own : list nat) (K : list (nat * list nat)) (s : rstate) : Prop := {
    a_inv : sinv rank s;
    a_len : length (rs_heap s) = n;
    a_own : Permutation (rs_own s) own;
    a_bound : forall p c, nth_error (rs_heap s) p = Some c -> (refs c <= Z.of_nat B)%Z;
    a_know : forall x l, In (x, l) K -> In x own /\ exists c, nth_error (rs_heap s) x = Some c /\ slots c = l
  }.
  Definition tri n own K os n' own' K' : Prop := forall B s, (Z.of_nat (B + length os) < INT_MAX)%Z -> at_ B n own K s ->
    exists s', do_ops depth s os = Ok s' /\ at_ (B + length os) n' own' K' s'.

  Lemma tri_nil n own K : tri n own K [] n own K.
  Proof. clear Rk. intros B s _ A. exists s. split; [reflexivity|]. cbn [length]. now rewrite Nat.add_0_r. Qed.
  Lemma tri_app n own K a n1 own1 K1 b n2 own2 K2 : tri n own K a n1 own1 K1 -> tri n1 own1 K1 b n2 own2 K2 -> tri n own K (a ++ b) n2 own2 K2.
  Proof. clear Rk.
    intros Ta Tb B s L A. rewrite app_length in *. destruct (Ta B s) as (s1 & E1 & A1); [lia|auto|].
    destruct (Tb (B + length a) s1) as (s2 & E2 & A2); [lia|auto|]. exists s2. rewrite ops_app, E1. cbn [bind]. split; auto. now rewrite Nat.add_assoc.
  Qed.
  Lemma tri_cons n own K o n1 own1 K1 b n2 own2 K2 : tri n own K [o] n1 own1 K1 -> tri n1 own1 K1 b n2 own2 K2 -> tri n own K (o :: b) n2 own2 K2.
  Proof. clear Rk. exact (tri_app n own K [o] n1 own1 K1 b n2 own2 K2). Qed.
  Lemma at_conv B n own K own' K' s : at_ B n own K s -> Permutation own own' -> incl K' K -> at_ B n own' K' s.
  Proof. clear Rk.
    intros [A1 A2 A3 A4 A5] P I1. constructor; auto.
    - now rewrite A3.
    - intros x l Ix. destruct (A5 _ _ (I1 _ Ix)) as [Io Sl]. split; auto. eapply Permutation_in; eauto.
  Qed.
  Lemma tri_conv n own0 K0 own K os n' own' K' own1 K1 : tri n own K os n' own' K' -> Permutation own0 own -> incl K K0 ->
    Permutation own' own1 -> incl K1 K' -> tri n own0 K0 os n' own1 K1.
  Proof. clear Rk.
    intros T P1 I1 P2 I2 B s L A. destruct (T B s L) as (s' & E & A'); [eapply at_conv; eauto|]. exists s'. split; auto. eapply at_conv; eauto.
  Qed.
  Lemma tri_pre (P : Prop) n own K os n' own' K' : (forall B s, at_ B n own K s -> P) -> (P -> tri n own K os n' own' K') -> tri n own K os n' own' K'.
  Proof. clear Rk. intros H T B s L A. exact (T (H B s A) B s L A). Qed.

  Lemma at_below B n own K s p : at_ B n own K s -> In p own -> p < n.
  Proof. clear Rk. intros A I1. rewrite <- (a_len _ _ _ _ _ A). apply (i_own _ _ _ _ (a_inv _ _ _ _ _ A)). eapply Permutation_in; [symmetry; apply (a_own _ _ _ _ _ A)|auto]. Qed.
  Lemma at_reach B n own K s p : at_ B n own K s -> In p own -> reach s p.
  Proof. clear Rk. intros A I1. apply r_own. eapply Permutation_in; [symmetry; apply (a_own _ _ _ _ _ A)|auto]. Qed.
  Lemma at_few B n own K s p : at_ B n own K s -> reach s p -> (Z.of_nat B < INT_MAX)%Z -> few s p.
  Proof. clear Rk.
    intros A R L. pose proof (a_inv _ _ _ _ _ A) as V. apply (few_hcnt rank s p V). destruct (reach_live rank s p V R) as [Kp Lp].
    destruct (inv_live _ _ _ _ _ V Kp Lp) as (c & E & _). pose proof (i_rc _ _ _ _ V _ _ E). pose proof (a_bound _ _ _ _ _ A _ _ E). lia.
  Qed.

  Lemma one fuel s o s' : do_op fuel s o = Ok s' -> do_ops fuel s [o] = Ok s'.
  Proof. intros E. cbn [do_ops]. now rewrite E. Qed.

  Lemma t_new n own K : tri n own K [New] (S n) (n :: own) ((n, []) :: K).
  Proof.
    intros B s L A. destruct (op_ok rank depth s New Rk (a_inv _ _ _ _ _ A) Logic.I) as (s' & E & V). exists s'. split; [now apply one|].
    cbn [do_op] in E. assert (s' = mkRS (rs_heap s ++ [mkCell 1 [] 0]) (length (rs_heap s) :: rs_own s)) as -> by congruence.
    rewrite (a_len _ _ _ _ _ A) in *. assert (Ln := a_len _ _ _ _ _ A). constructor; cbn [rs_heap rs_own]; auto.
    - rewrite app_length. cbn. lia.
    - apply perm_skip, (a_own _ _ _ _ _ A).
    - intros p c E1. destruct (Nat.lt_ge_cases p (length (rs_heap s))) as [H|H].
      + rewrite nth_error_app1 in E1 by auto. pose proof (a_bound _ _ _ _ _ A _ _ E1). lia.
      + rewrite nth_error_app2 in E1 by auto. destruct (p - length (rs_heap s)) as [|[|]]; cbn in E1; try discriminate. assert (c = mkCell 1 [] 0) as -> by congruence. cbn. lia.
    - intros x l [I1|I1].
      + assert (x = n /\ l = []) as [-> ->] by (split; congruence). split; [now left|]. exists (mkCell 1 [] 0). rewrite nth_error_app2 by lia. rewrite Ln, Nat.sub_diag. split; reflexivity.
      + destruct (a_know _ _ _ _ _ A _ _ I1) as [Io (c & Ec & Sl)]. split; [now right|]. exists c. split; auto. rewrite nth_error_app1; auto. eapply some_lt; eauto.
  Qed.

  Lemma t_ref n own K p : In p own -> tri n own K [Ref p] n (p :: own) K.
  Proof.
    intros Ip B s L A. cbn [length] in *. assert (R := at_reach _ _ _ _ _ _ A Ip).
    assert (Lw : lawful_op rank s (Ref p)) by (split; [auto|eapply at_few; eauto; lia]).
    destruct (op_ok rank depth s _ Rk (a_inv _ _ _ _ _ A) Lw) as (s' & E & V). exists s'. split; [now apply one|].
    cbn [do_op] in E. destruct (ref (rs_heap s) p) as [h| | |] eqn:Eh; cbn [bind] in E; try discriminate. assert (s' = mkRS h (p :: rs_own s)) as -> by congruence.
    apply ref_shape in Eh as (c & Ec & Fc & ->). constructor; cbn [rs_heap rs_own]; auto.
    - rewrite upd_length. apply (a_len _ _ _ _ _ A).
    - apply perm_skip, (a_own _ _ _ _ _ A).
    - intros q x Q. apply nth_error_upd in Q as [(<- & -> & _)|(N & Q)]; [cbn [refs]; pose proof (a_bound _ _ _ _ _ A _ _ Ec); lia|].
      pose proof (a_bound _ _ _ _ _ A _ _ Q). lia.
    - intros x l I1. destruct (a_know _ _ _ _ _ A _ _ I1) as [Io (y & Ey & Sl)]. split; [now right|].
      destruct (Nat.eq_dec p x) as [<-|N].
      + eexists. split; [apply nth_error_upd_eq; eapply some_lt; eauto|]. cbn [slots]. congruence.
      + exists y. rewrite nth_error_upd_neq by auto. auto.
  Qed.

  Lemma t_unref n own K p own' K' : Permutation own (p :: own') -> (forall x l, In (x, l) K' -> In (x, l) K /\ In x own') ->
    tri n own K [Unref p] n own' K'.
  Proof.
    intros P HK B s L A. cbn [length] in *.
    assert (Ip : In p (rs_own s)) by (eapply Permutation_in; [symmetry; etransitivity; [apply (a_own _ _ _ _ _ A)|exact P]|now left]).
    destruct (op_ok rank depth s (Unref p) Rk (a_inv _ _ _ _ _ A) Ip) as (s' & E & V). exists s'. split; [now apply one|].
    cbn [do_op] in E. destruct (unref depth (rs_heap s) p) as [h| | |] eqn:Eh; cbn [bind] in E; try discriminate. assert (s' = mkRS h (remove_one p (rs_own s))) as -> by congruence.
    apply unref_keeps in Eh as [Ln Kp]. constructor; cbn [rs_heap rs_own]; auto.
    - rewrite Ln. apply (a_len _ _ _ _ _ A).
    - apply (Permutation_cons_inv (a := p)). rewrite <- P, <- (a_own _ _ _ _ _ A). symmetry. now apply remove_one_perm.
    - intros q x Q. destruct (Kp _ _ Q) as (c & Ec & _ & R & _). pose proof (a_bound _ _ _ _ _ A _ _ Ec). lia.
    - intros x l I1. destruct (HK _ _ I1) as [I2 Io]. split; auto. destruct (a_know _ _ _ _ _ A _ _ I2) as [_ (y & Ey & Sl)].
      destruct (nth_error h x) as [c'|] eqn:E'; [|apply nth_error_None in E'; apply some_lt in Ey; lia].
      destruct (Kp _ _ E') as (c & Ec & Sc & _). exists c'. split; auto. congruence.
  Qed.

  Lemma t_give n own K x p i own' K' : Permutation own (p :: own') -> (In x own \/ exists w l, In (w, l) K /\ In x l) -> rank p < rank x ->
    (forall y l', In (y, l') K' -> In y own' /\ ((y <> x /\ In (y, l') K) \/ (y = x /\ exists l, In (x, l) K /\ l' = insert_at i p l))) ->
    tri n own K [Give x p i] n own' K'.
  Proof.
    intros P Rx Rr HK B s L A. cbn [length] in *.
    assert (Ip : In p (rs_own s)) by (eapply Permutation_in; [symmetry; etransitivity; [apply (a_own _ _ _ _ _ A)|exact P]|now left]).
    assert (R : reach s x).
    { destruct Rx as [Rx|(w & l & Iw & Il)]; [eapply at_reach; eauto|]. destruct (a_know _ _ _ _ _ A _ _ Iw) as [Io (c & Ec & Sl)].
      eapply r_slot; [eapply at_reach; eauto|exact Ec|congruence]. }
    destruct (op_ok rank depth s (Give x p i) Rk (a_inv _ _ _ _ _ A) (conj R (conj Ip Rr))) as (s' & E & V). exists s'. split; [now apply one|].
    cbn [do_op] in E. unfold access in E. destruct (nth_error (rs_heap s) x) as [c|] eqn:Ec; cbn [bind] in E; try discriminate.
    destruct (frees c =? 0); cbn [bind] in E; try discriminate.
    assert (s' = mkRS (upd (rs_heap s) x (mkCell (refs c) (insert_at i p (slots c)) (frees c))) (remove_one p (rs_own s))) as -> by congruence.
    constructor; cbn [rs_heap rs_own]; auto.
    - rewrite upd_length. apply (a_len _ _ _ _ _ A).
    - apply (Permutation_cons_inv (a := p)). rewrite <- P, <- (a_own _ _ _ _ _ A). symmetry. now apply remove_one_perm.
    - intros q y Q. apply nth_error_upd in Q as [(<- & -> & _)|(N & Q)]; [cbn [refs]; pose proof (a_bound _ _ _ _ _ A _ _ Ec); lia|].
      pose proof (a_bound _ _ _ _ _ A _ _ Q). lia.
    - intros y l' I1. destruct (HK _ _ I1) as [Io H]. split; auto. destruct H as [[N I2]|[-> (l & I2 & ->)]]; destruct (a_know _ _ _ _ _ A _ _ I2) as [_ (z & Ez & Sl)].
      + exists z. rewrite nth_error_upd_neq by auto. auto.
      + eexists. split; [apply nth_error_upd_eq; eapply some_lt; eauto|]. cbn [slots]. congruence.
  Qed.

  Lemma t_take n own K x l p i K' : In (x, l) K -> nth_error l i = Some p ->
    (forall y l', In (y, l') K' -> (y <> x /\ In (y, l') K) \/ (y = x /\ l' = remove_at i l)) ->
    tri n own K [Take x i] n (p :: own) K'.
  Proof.
    intros Ix Np HK B s L A. cbn [length] in *. destruct (a_know _ _ _ _ _ A _ _ Ix) as [Io (c & Ec & Sl)].
    destruct (op_ok rank depth s (Take x i) Rk (a_inv _ _ _ _ _ A) (at_reach _ _ _ _ _ _ A Io)) as (s' & E & V). exists s'. split; [now apply one|].
    cbn [do_op] in E. unfold access in E. rewrite Ec in E. cbn [bind] in E. destruct (frees c =? 0); cbn [bind] in E; try discriminate. rewrite Sl, Np in E.
    assert (s' = mkRS (upd (rs_heap s) x (mkCell (refs c) (remove_at i l) (frees c))) (p :: rs_own s)) as -> by congruence.
    constructor; cbn [rs_heap rs_own]; auto.
    - rewrite upd_length. apply (a_len _ _ _ _ _ A).
    - apply perm_skip, (a_own _ _ _ _ _ A).
    - intros q y Q. apply nth_error_upd in Q as [(<- & -> & _)|(N & Q)]; [cbn [refs]; pose proof (a_bound _ _ _ _ _ A _ _ Ec); lia|].
      pose proof (a_bound _ _ _ _ _ A _ _ Q). lia.
    - intros y l' I1. destruct (HK _ _ I1) as [[N I2]|[-> ->]].
      + destruct (a_know _ _ _ _ _ A _ _ I2) as [Iy (z & Ez & Sz)]. split; [now right|]. exists z. rewrite nth_error_upd_neq by auto. auto.
      + split; [now right|]. eexists. split; [apply nth_error_upd_eq; eapply some_lt; eauto|]. reflexivity.
  Qed.

  (** ** Functions *)
  Definition low (n : nat) (own : list nat) (K : list (nat * list nat)) : Prop := (forall p, In p own -> p < n) /\ (forall x l, In (x, l) K -> In x own).
  Lemma tri_low n own K os n' own' K' : (low n own K -> tri n own K os n' own' K') -> tri n own K os n' own' K'.
  Proof. clear Rk. apply tri_pre. intros B s A. split; [intros p; eapply at_below; eauto|]. intros x l I1. now destruct (a_know _ _ _ _ _ A _ _ I1). Qed.

  Lemma t_obj n own K : In 0 own -> rank 0 < rank n -> tri n own K (object_new n 0) (S n) (n :: own) ((n, [0]) :: K).
  Proof.
    intros I0 R0. apply tri_low. intros [Lo Lk]. unfold object_new. eapply tri_cons; [apply t_new|]. eapply tri_cons; [apply (t_ref _ _ _ 0); now right|].
    apply t_give; [reflexivity|left; now right; left|auto|]. intros y l [E|I1].
    - assert (y = n /\ l = [0]) as [-> ->] by (split; congruence). split; [now left|]. right. split; auto. exists []. split; [now left|reflexivity].
    - split; [right; eauto|]. left. split; [|now right]. apply Lk, Lo in I1. lia.
  Qed.
  Lemma t_wrap n own K p : In p own -> tri n own K (wrap p) n own K.
  Proof.
    intros Ip. apply tri_low. intros [_ Lk]. eapply tri_cons; [apply t_ref; auto|]. apply t_unref; [reflexivity|]. intros x l I1. split; eauto.
  Qed.
  (** the new object is given to [x] at once *)
  Lemma t_part n own K x i K' : In 0 own -> rank 0 < rank n -> In x own -> rank n < rank x ->
    (forall y l', In (y, l') K' -> (y <> x /\ In (y, l') K) \/ (y = x /\ exists l, In (x, l) K /\ l' = insert_at i n l)) ->
    tri n own K (object_new n 0 ++ [Give x n i]) (S n) own K'.
  Proof.
    intros I0 R0 Ix Rx HK. apply tri_low. intros [Lo Lk]. eapply tri_app; [apply t_obj; auto|]. apply t_give; [reflexivity|left; now right|auto|].
    intros y l' I1. destruct (HK _ _ I1) as [[N I2]|[-> (l & I2 & ->)]].
    - split; [eauto|]. left. split; auto. now right.
    - split; [auto|]. right. split; auto. exists l. split; auto. now right.
  Qed.

  Ltac here := first [left; reflexivity|right; here].
  Lemma t_database n own K : In 0 own -> rank n = 2 -> rank (S n) = 1 -> rank 0 = 0 -> tri n own K (database_new n (S n) 0) (S (S n)) (n :: own) K.
  Proof.
    intros I0 R1 R2 R0. apply tri_low. intros [Lo Lk].
    change (database_new n (S n) 0) with (object_new n 0 ++ (object_new (S n) 0 ++ [Give n (S n) 0])). eapply tri_app; [apply t_obj; auto; lia|].
    apply t_part; try lia; [now right|now left|]. intros y l I1. left. split; [|now right]. apply Lk, Lo in I1. lia.
  Qed.
  Definition writer_slots (w : nat) : list nat := [w_ases_of w; w_countries_of w; w_tree_of w; w_pool_of w; 0].
  Lemma t_writer n own K : In 0 own -> rank 0 = 0 -> rank n = 3 -> rank (w_pool_of n) = 1 -> rank (w_tree_of n) = 2 -> rank (w_ases_of n) = 2 -> rank (w_countries_of n) = 2 ->
    tri n own K (writer_new n 0) (n + 5) (n :: own) ((n, writer_slots n) :: K).
  Proof.
    intros I0 R0 Rn Rp Rt Ra Rc. apply tri_low. intros [Lo Lk].
    assert (Kn : forall y l, In (y, l) K -> y <> n) by (intros y l I1; apply Lk, Lo in I1; lia).
    assert (St : forall m l x i, rank x < 3 -> 0 < rank x -> m = x ->
      tri m (n :: own) ((n, l) :: K) (object_new x 0 ++ [Give n x i]) (S m) (n :: own) ((n, insert_at i x l) :: K)).
    { intros m l x i H H0 ->. apply t_part; try lia; [now right|now left|]. intros y l' [E|I1].
      - right. split; [congruence|]. exists l. split; [now left|congruence].
      - left. split; [eauto|now right]. }
    unfold writer_new, w_pool_of, w_tree_of, w_ases_of, w_countries_of in *. eapply tri_app; [apply t_obj; auto; lia|].
    rewrite (app_assoc (object_new (n + 1) 0)). eapply tri_app; [apply (St (S n)); lia|].
    rewrite (app_assoc (object_new (n + 2) 0)). eapply tri_app; [apply (St (S (S n))); lia|].
    rewrite (app_assoc (object_new (n + 3) 0)). eapply tri_app; [apply (St (S (S (S n)))); lia|].
    replace (n + 5) with (S (S (S (S (S n))))) by lia. exact (St (S (S (S (S n)))) [n + 3; n + 2; n + 1; 0] (n + 4) 1 ltac:(lia) ltac:(lia) ltac:(lia)).
  Qed.
  Lemma t_enum n own K d : In 0 own -> In d own -> rank 0 = 0 -> rank d = 2 -> rank n = 3 -> rank (S n) = 2 ->
    tri n own K (py_enumerator_new n d 0) (S (S n)) (n :: own) K.
  Proof.
    intros I0 Id R0 Rd Rn Rs. apply tri_low. intros [Lo Lk].
    assert (Kn : forall y l, In (y, l) K -> y <> n) by (intros y l I1; apply Lk, Lo in I1; lia).
    unfold py_enumerator_new. eapply tri_app; [apply t_obj; auto; lia|]. eapply tri_cons; [apply (t_ref _ _ _ d); now right|].
    eapply tri_cons; [apply (t_give _ _ _ n d 0 (n :: own) K); [reflexivity|left; right; now left|lia|]|].
    - intros y l I1. split; [right; eauto|]. left. split; [eauto|now right].
    - apply t_part; try lia; [now right|now left|]. intros y l I1. left. split; [eauto|auto].
  Qed.

  Lemma t_items l : forall its n own K, In 0 own -> In l own -> rank 0 = 0 -> rank l = 2 -> (forall i, i < length its -> rank (n + i) = 1) ->
    (forall y s, In (y, s) K -> y <> l) -> tri n own K (list_items l n its) (n + length its) own K.
  Proof.
    induction its as [|b its IH]; intros n own K I0 Il R0 Rl Rn Kl; cbn [list_items length].
    - rewrite Nat.add_0_r. apply tri_nil.
    - assert (Rn0 : rank n = 1) by (rewrite <- (Nat.add_0_r n); apply Rn; cbn; lia). apply tri_low. intros [Lo Lk].
      eapply tri_app; [apply t_obj; auto; lia|].
      eapply (tri_app _ _ _ _ (S n) (n :: own) K).
      { destruct b; [|eapply tri_conv; [apply tri_nil|reflexivity|apply incl_refl|reflexivity|apply incl_tl, incl_refl]].
        unfold list_push. eapply tri_cons; [apply t_ref; now left|]. apply t_give; [reflexivity|left; right; now right|lia|].
        intros y s I1. split; [right; eauto|]. left. split; [eauto|now right]. }
      eapply tri_cons; [apply t_unref; [reflexivity|]; intros y s I1; split; [exact I1|eauto]|].
      replace (n + S (length its)) with (S n + length its) by lia. apply IH; auto. intros i Hi. replace (S n + i) with (n + S i) by lia. apply Rn. cbn. lia.
  Qed.
  Lemma t_search_list n own K e its : In 0 own -> In e own -> rank 0 = 0 -> rank e = 3 -> rank n = 2 -> (forall i, i < length its -> rank (S n + i) = 1) ->
    (forall y s, In (y, s) K -> y <> e) -> tri n own K (search_list e n its) (n + S (length its)) own K.
  Proof.
    intros I0 Ie R0 Re Rn Ri Ke. apply tri_low. intros [Lo Lk]. unfold search_list. eapply tri_app; [apply t_obj; auto; lia|].
    assert (Kn : forall y s, In (y, s) K -> y <> n) by (intros y s I1; apply Lk, Lo in I1; lia).
    eapply (tri_app _ _ _ _ (S n + length its) (n :: own) K).
    { eapply tri_conv; [apply (t_items n its (S n) (n :: own) K); auto; [now right|now left]|reflexivity|apply incl_tl, incl_refl|reflexivity|apply incl_refl]. }
    replace (n + S (length its)) with (S n + length its) by lia.
    eapply tri_cons; [apply (t_ref _ _ _ n); now left|]. eapply tri_cons; [apply (t_give _ _ _ e n 0 (n :: own) K); [reflexivity|left; right; now right|lia|]|].
    - intros y s I1. split; [right; eauto|]. left. split; eauto.
    - apply t_unref; [reflexivity|]. intros y s I1. split; eauto.
  Qed.

  Lemma t_exclude_push l : forall k n own K, In 0 own -> In l own -> rank 0 = 0 -> rank l = 2 -> (forall i, i < k -> rank (n + i) = 1) ->
    (forall y s, In (y, s) K -> y <> l) -> forall sl, tri n own ((l, sl) :: K) (exclude_push l n k) (n + k) own ((l, rev (seq n k) ++ sl) :: K).
  Proof.
    induction k as [|k IH]; intros n own K I0 Il R0 Rl Rn Kl sl; cbn [exclude_push seq rev app].
    - rewrite Nat.add_0_r. apply tri_nil.
    - assert (Rn0 : rank n = 1) by (rewrite <- (Nat.add_0_r n); apply Rn; lia). apply tri_low. intros [Lo Lk].
      eapply tri_app; [apply t_obj; auto; lia|].
      unfold list_push. eapply (tri_app _ _ _ [Ref n; Give l n 0] (S n) (n :: own) ((l, n :: sl) :: K)).
      { eapply tri_cons; [apply t_ref; now left|]. apply t_give; [reflexivity|left; right; now right|lia|].
        intros y s [E|I1].
        - assert (y = l /\ s = n :: sl) as [-> ->] by (split; congruence). split; [now right|]. right. split; auto. exists sl. split; [right; now left|reflexivity].
        - split; [right; eapply Lk; right; exact I1|]. left. split; [eauto|right; now right]. }
      eapply tri_cons; [apply (t_unref _ _ _ n own ((l, n :: sl) :: K)); [reflexivity|]|].
      { intros y s I1. split; [exact I1|]. destruct I1 as [E|I1]; [assert (y = l) as -> by congruence; auto|]. eapply Lk. right. exact I1. }
      replace (n + S k) with (S n + k) by lia. rewrite <- app_assoc. apply IH; auto. intros i Hi. replace (S n + i) with (n + S i) by lia. apply Rn. lia.
  Qed.
  Lemma t_exclude_pop l sl m n : forall k own K, In l own -> (forall y s, In (y, s) K -> y <> l) ->
    tri m own ((l, rev (seq n k) ++ sl) :: K) (exclude_pop l n k) m (seq n k ++ own) ((l, sl) :: K).
  Proof.
    induction k as [|k IH]; intros own K Il Kl; cbn [exclude_pop].
    - cbn [seq rev app]. apply tri_nil.
    - rewrite seq_S, rev_app_distr. cbn [rev app].
      eapply tri_cons; [apply (t_take _ _ _ l ((n + k) :: rev (seq n k) ++ sl) (n + k) 0 ((l, rev (seq n k) ++ sl) :: K)); [now left|reflexivity|]|].
      { intros y s [E|I1]; [right; split; [congruence|]; unfold remove_at; cbn; congruence|left; split; [eauto|now right]]. }
      eapply tri_app; [apply t_wrap; now left|]. eapply tri_conv; [apply (IH ((n + k) :: own) K); auto; now right|reflexivity|apply incl_refl| |apply incl_refl].
      rewrite <- app_assoc. cbn [app]. reflexivity.
  Qed.
  Lemma t_exclude n own K k : In 0 own -> rank 0 = 0 -> rank n = 2 -> (forall i, i < k -> rank (S n + i) = 1) ->
    tri n own K (exclude n k) (n + S k) (seq (S n) k ++ own) K.
  Proof.
    intros I0 R0 Rn Ri. apply tri_low. intros [Lo Lk]. unfold exclude. eapply tri_app; [apply t_obj; auto; lia|].
    assert (Kn : forall y s, In (y, s) K -> y <> n) by (intros y s I1; apply Lk, Lo in I1; lia).
    eapply tri_app; [apply t_exclude_push; auto; [now right|now left]|]. replace (S n + k) with (n + S k) by lia.
    eapply tri_app; [apply t_exclude_pop; [now left|auto]|]. apply t_unref; [symmetry; apply Permutation_middle|].
    intros y s I1. split; [now right|]. apply in_or_app. right. eauto.
  Qed.
End Tri.

(** ** What is not in use was freed *)
Lemma lost_freed rank s p c : (forall q, rank q < depth) -> sinv rank s -> nth_error (rs_heap s) p = Some c -> ~ reach s p -> frees c = 1.
Proof.
  intros Rk V E N. assert (D : forall k p c, depth - rank p <= k -> nth_error (rs_heap s) p = Some c -> ~ reach s p -> (refs c <= 0)%Z).
  { clear p c E N. induction k as [|k IH]; intros p c K Ec N; [specialize (Rk p); lia|].
    rewrite (i_rc _ _ _ _ V _ _ Ec). assert (C0 : cnt (rs_own s) p = 0) by (apply (count_occ_not_In Nat.eq_dec); intros I1; apply N; now apply r_own).
    rewrite C0. cbn [Nat.add].
    assert (Z0 : forall q x, nth_error (rs_heap s) q = Some x -> part x p = 0).
    { intros q x Ex. unfold part. destruct (Z.ltb_spec 0 (refs x)) as [G|G]; auto. destruct (in_dec Nat.eq_dec p (slots x)) as [I1|I1].
      - pose proof (i_slots _ _ _ _ V _ _ _ Ex I1). assert (refs x <= 0)%Z; [|lia]. apply (IH q); [pose proof (Rk p); lia|auto|].
        intros R. apply N. eapply r_slot; eauto.
      - now apply (count_occ_not_In Nat.eq_dec). }
    revert Z0. generalize (rs_heap s). clear. induction h as [|x h IH]; intros Z0; cbn [hcnt]; [lia|]. rewrite (Z0 0 x eq_refl).
    apply IH. intros q y E. apply (Z0 (S q)). auto. }
  pose proof (i_free _ _ _ _ V _ _ E) as F. assert (refs c <= 0)%Z by (eapply D; eauto). replace (0 <? refs c)%Z with false in F by lia. exact F.
Qed.

(** ** Programs *)
Definition of_obj {A} (f : pyobj -> nat -> list A) (o : option pyobj) : list A :=
  match o with Some x => match o_ptr x with Some p => f x p | None => [] end | None => [] end.
Definition ptrs (l : list (option pyobj)) : list nat := flat_map (of_obj (fun _ p => [p])) l.
Definition w_known (x : pyobj) (p : nat) : list (nat * list nat) := match o_kind x with Writer => [(p, writer_slots p)] | _ => [] end.
Definition writers (l : list (option pyobj)) : list (nat * list nat) := flat_map (of_obj w_known) l.
Definition krank (k : kind) : nat := match k with Network | As | Country => 1 | Database => 2 | Enumerator | Writer => 3 end.

(** Ranks of the objects of the library that a statement creates *)
Definition list_kinds (l : option (list bool)) : list nat := match l with Some c => 2 :: repeat 1 (length c) | None => [] end.
Definition stmt_kinds (s : stmt) : list nat :=
  match s with
  | Create Database true => [2; 1]
  | Create _ true => [1]
  | Create_writer _ _ => [3; 1; 2; 2; 2]
  | Made _ | Result _ _ | Add _ _ _ => [1]
  | Iterate _ | Listed _ => [3; 2]
  | Search _ codes asns _ => [3; 2] ++ list_kinds codes ++ list_kinds asns
  | Exclude _ _ k => 2 :: repeat 1 k
  | _ => []
  end.
Lemma repeat_low k r : r < depth -> Forall (fun x => x < depth) (repeat r k).
Proof. intros H. apply Forall_forall. intros x I1. apply repeat_spec in I1. lia. Qed.
Lemma list_kinds_low l : Forall (fun x => x < depth) (list_kinds l).
Proof. destruct l; cbn [list_kinds]; [|constructor]. constructor; [unfold depth; lia|]. apply repeat_low. unfold depth. lia. Qed.
Lemma kinds_low s : Forall (fun x => x < depth) (stmt_kinds s).
Proof.
  destruct s as [k ok|? ?|k|o|k|o k|o k p|o|o|o|o codes asns f|o other k|o|o|o|o]; try destruct k; try destruct ok; cbn [stmt_kinds app];
    repeat (constructor; [unfold depth; lia|]); try constructor; try (apply Forall_app; split; apply list_kinds_low); try (apply repeat_low; unfold depth; lia).
Qed.

Lemma nth_one i k : i < k -> nth i (repeat 1 k) 0 = 1.
Proof. revert i. induction k as [|k IH]; intros [|i] H; cbn; auto; try lia. apply IH. lia. Qed.

Section Program.
  Variable full : list nat.
  Hypothesis F0 : nth 0 full 0 = 0.
  Hypothesis Fl : Forall (fun x => x < depth) full.
  Let rank (p : nat) : nat := nth p full 0.
  Lemma full_low : forall p, rank p < depth.
  Proof.
    intros p. unfold rank. destruct (Nat.lt_ge_cases p (length full)) as [H|H].
    - rewrite Forall_forall in Fl. apply Fl. now apply nth_In.
    - rewrite nth_overflow by auto. unfold depth. lia.
  Qed.
  Definition good (x : pyobj) : Prop := exists p, o_ptr x = Some p /\ rank p = krank (o_kind x) /\
    match o_kind x with Writer => rank (w_tree_of p) = 2 /\ rank (w_ases_of p) = 2 /\ rank (w_countries_of p) = 2 | _ => True end.
  Record pinv (B n : nat) (ts : list (option kind)) (st : pystate) : Prop := {
    p_at : at_ rank B n (0 :: ptrs (st_objs st)) (writers (st_objs st)) (st_c st);
    p_types : map (option_map o_kind) (st_objs st) = ts;
    p_good : forall o x, nth_error (st_objs st) o = Some (Some x) -> good x
  }.

  Lemma ptrs_app a b : ptrs (a ++ b) = ptrs a ++ ptrs b.
  Proof. apply flat_map_app. Qed.
  Lemma writers_app a b : writers (a ++ b) = writers a ++ writers b.
  Proof. apply flat_map_app. Qed.
  Lemma ptrs_in l o x p : nth_error l o = Some (Some x) -> o_ptr x = Some p -> In p (ptrs l).
  Proof. intros E P. apply in_flat_map. exists (Some x). split; [eapply nth_error_In; eauto|]. cbn [of_obj]. rewrite P. now left. Qed.
  Lemma writers_own l x s : In (x, s) (writers l) -> In x (ptrs l) /\ s = writer_slots x.
  Proof.
    intros I1. apply in_flat_map in I1 as ([y|] & I2 & I3); [|destruct I3]. cbn [of_obj] in I3. destruct (o_ptr y) as [p|] eqn:P; [|destruct I3].
    unfold w_known in I3. destruct (o_kind y); try contradiction; destruct I3 as [I3|[]]. assert (x = p /\ s = writer_slots p) as [-> ->] by (split; congruence).
    split; auto. apply in_flat_map. exists (Some y). split; auto. cbn [of_obj]. rewrite P. now left.
  Qed.
  Lemma writers_in l o x p : nth_error l o = Some (Some x) -> o_ptr x = Some p -> o_kind x = Writer -> In (p, writer_slots p) (writers l).
  Proof. intros E P K. apply in_flat_map. exists (Some x). split; [eapply nth_error_In; eauto|]. cbn [of_obj]. rewrite P. unfold w_known. rewrite K. now left. Qed.
  Lemma ptrs_upd l o x p : nth_error l o = Some (Some x) -> o_ptr x = Some p -> Permutation (ptrs l) (p :: ptrs (upd l o None)).
  Proof.
    revert o. induction l as [|y l IH]; intros [|o]; cbn [nth_error upd]; try discriminate.
    - intros E P. assert (y = Some x) as -> by congruence. cbn [ptrs flat_map of_obj]. rewrite P. reflexivity.
    - intros E P. cbn [ptrs flat_map]. fold (ptrs l). fold (ptrs (upd l o None)). rewrite (IH _ E P). symmetry. apply Permutation_middle.
  Qed.
  Lemma writers_upd l o : incl (writers (upd l o None)) (writers l).
  Proof.
    revert o. induction l as [|y l IH]; intros [|o]; cbn [upd]; try apply incl_refl.
    - cbn [writers flat_map of_obj app]. apply incl_appr, incl_refl.
    - cbn [writers flat_map]. apply incl_app; [apply incl_appl, incl_refl|]. apply incl_appr, IH.
  Qed.
  Lemma map_upd {A C} (f : A -> C) l o v : map f (upd l o v) = upd (map f l) o (f v).
  Proof. revert o. induction l as [|y l IH]; intros [|o]; cbn; auto. now rewrite IH. Qed.

  Lemma at_more B B' n own K s : B <= B' -> at_ rank B n own K s -> at_ rank B' n own K s.
  Proof. intros L [A1 A2 A3 A4 A5]. constructor; auto. intros p c E. specialize (A4 _ _ E). lia. Qed.

  Lemma perform_ok B n ts st os n' new own' K' e :
    pinv B n ts st -> tri rank n (0 :: ptrs (st_objs st)) (writers (st_objs st)) os n' own' K' ->
    Permutation own' (0 :: ptrs (st_objs st) ++ ptrs (map Some new)) -> incl (writers (st_objs st) ++ writers (map Some new)) K' ->
    (forall x, In x new -> good x) -> length os <= e -> (Z.of_nat (B + e) < INT_MAX)%Z ->
    exists st', perform st os new = Ok st' /\ pinv (B + e) n' (ts ++ map (fun x => Some (o_kind x)) new) st'.
  Proof.
    intros [A T G] Tr P W N Le L. destruct (Tr B (st_c st) ltac:(lia) A) as (s' & E & A'). unfold perform. rewrite E. cbn [bind]. eexists. split; [reflexivity|].
    constructor; cbn [st_c st_objs].
    - apply (at_more (B + length os)); [lia|]. eapply at_conv; [exact A'| |].
      + rewrite ptrs_app. exact P.
      + rewrite writers_app. exact W.
    - rewrite map_app, T, map_map. reflexivity.
    - intros o x E1. destruct (Nat.lt_ge_cases o (length (st_objs st))) as [H|H].
      + rewrite nth_error_app1 in E1 by auto. eauto.
      + rewrite nth_error_app2 in E1 by auto. apply nth_error_In, in_map_iff in E1 as (y & Ey & Iy). apply N. congruence.
  Qed.

  Lemma object_ok B n ts st o k : pinv B n ts st -> nth_error ts o = Some (Some k) ->
    exists x p, nth_error (st_objs st) o = Some (Some x) /\ o_kind x = k /\ o_ptr x = Some p /\ rank p = krank k /\ In p (ptrs (st_objs st)) /\
      good x /\ access (rs_heap (st_c st)) p <> UB /\ forall f, f k = true -> pointer st o f = Ok p.
  Proof.
    intros [A T G] E. rewrite <- T, nth_error_map in E. destruct (nth_error (st_objs st) o) as [[x|]|] eqn:Eo; cbn in E; try discriminate.
    assert (Kx : o_kind x = k) by congruence. destruct (G _ _ Eo) as (p & Ep & Rp & W). exists x, p.
    assert (Ip := ptrs_in _ _ _ _ Eo Ep). assert (R : reach (st_c st) p) by (eapply at_reach; eauto; now right).
    destruct (reach_live rank (st_c st) p (a_inv _ _ _ _ _ _ A) R) as [Kp Lp]. destruct (inv_live _ _ _ _ _ (a_inv _ _ _ _ _ _ A) Kp Lp) as (c & _ & _ & _ & Ac).
    subst k. split; auto. split; auto. split; auto. split; auto. split; auto. split; [exists p; auto|]. split; [rewrite Ac; discriminate|].
    intros f Hf. unfold pointer, object. rewrite Eo. cbn [bind]. rewrite Hf, Ep, Ac. reflexivity.
  Qed.
  Lemma has_ok ts o k : has ts o k = true -> nth_error ts o = Some (Some k).
  Proof. unfold has. destruct (nth_error ts o) as [[[]|]|]; destruct k; try discriminate; auto. Qed.

  Lemma repeat_types k (f : nat -> nat) (l : list nat) : length l = k -> map (fun x => Some (o_kind x)) (map (fun i => mkObj Network (Some (f i))) l) = repeat (Some Network) k.
  Proof. intros <-. induction l as [|i l IH]; cbn; auto. now rewrite IH. Qed.
  Lemma news_ptrs (f : nat -> nat) (l : list nat) : ptrs (map Some (map (fun i => mkObj Network (Some (f i))) l)) = map f l.
  Proof. induction l as [|i l IH]; cbn; auto. now rewrite <- IH. Qed.
  Lemma news_writers (f : nat -> nat) (l : list nat) : writers (map Some (map (fun i => mkObj Network (Some (f i))) l)) = [].
  Proof. induction l as [|i l IH]; cbn; auto. Qed.

  (** lengths *)
  Lemma len_items l : forall its n, length (list_items l n its) <= 6 * length its.
  Proof. induction its as [|b its IH]; intros n; cbn [list_items]; [cbn; lia|]. rewrite !app_length. specialize (IH (S n)). destruct b; cbn [object_new list_push length] in *; lia. Qed.
  Lemma len_list e l its : length (search_list e l its) <= 6 + 6 * length its.
  Proof. unfold search_list. rewrite !app_length. pose proof (len_items l its (S l)). cbn [object_new length]. lia. Qed.
  Lemma len_push l : forall k n, length (exclude_push l n k) = 6 * k.
  Proof. induction k as [|k IH]; intros n; cbn [exclude_push]; [reflexivity|]. rewrite !app_length, IH. cbn. lia. Qed.
  Lemma len_pop l n : forall k, length (exclude_pop l n k) = 3 * k.
  Proof. induction k as [|k IH]; cbn [exclude_pop]; [reflexivity|]. cbn [length]. rewrite !app_length, IH. cbn. lia. Qed.

  Lemma rank_at front s rest p : full = front ++ stmt_kinds s ++ rest -> forall i, i < length (stmt_kinds s) -> p = length front + i -> rank p = nth i (stmt_kinds s) 0.
  Proof.
    intros E i Hi ->. unfold rank. rewrite E, app_nth2 by lia. replace (length front + i - length front) with i by lia. now rewrite app_nth1.
  Qed.

  (** The plain objects *)
  Lemma plain_ok B n ts st k os : pinv B n ts st -> is_plain k = true -> rank n = 1 ->
    tri rank n (0 :: ptrs (st_objs st)) (writers (st_objs st)) os (S n) (n :: 0 :: ptrs (st_objs st)) (writers (st_objs st)) ->
    length os <= 32 -> (Z.of_nat (B + 32) < INT_MAX)%Z ->
    exists st', perform st os [mkObj k (Some n)] = Ok st' /\ pinv (B + 32) (S n) (ts ++ [Some k]) st'.
  Proof.
    intros V Pk Rn T Le L. apply (perform_ok B n ts st os (S n) [mkObj k (Some n)] _ _ 32 V T); auto.
    - cbn [map ptrs flat_map of_obj o_ptr app]. rewrite perm_swap. apply perm_skip, Permutation_cons_append.
    - cbn [map writers flat_map of_obj o_ptr app]. unfold w_known. cbn [o_kind]. destruct k; try discriminate; cbn [app]; rewrite app_nil_r; apply incl_refl.
    - intros x [<-|[]]. exists n. split; auto. destruct k; try discriminate; split; cbn; auto.
  Qed.
  Lemma t_alone n own K : In 0 own -> rank n = 1 -> tri rank n own K (object_new n 0) (S n) (n :: own) K.
  Proof.
    intros I0 Rn. assert (R0 : rank 0 < rank n) by (change (rank 0) with (nth 0 full 0); rewrite F0; lia).
    eapply tri_conv; [exact (t_obj rank full_low n own K I0 R0)|reflexivity|apply incl_refl|reflexivity|apply incl_tl, incl_refl].
  Qed.
  Lemma t_plain n own K : In 0 own -> rank n = 1 -> tri rank n own K (object_new n 0 ++ wrap n) (S n) (n :: own) K.
  Proof.
    intros I0 Rn. eapply tri_app; [apply (t_obj rank full_low); auto|].
    - change (rank 0) with (nth 0 full 0). rewrite F0. lia.
    - eapply tri_conv; [apply (t_wrap rank full_low (S n) (n :: own) ((n, [0]) :: K) n); now left|reflexivity|apply incl_refl|reflexivity|apply incl_tl, incl_refl].
  Qed.
  (** Enumerators *)
  Lemma enum_ok B n ts st os n' e : pinv B n ts st -> rank n = 3 ->
    tri rank n (0 :: ptrs (st_objs st)) (writers (st_objs st)) os n' (n :: 0 :: ptrs (st_objs st)) (writers (st_objs st)) ->
    length os <= e -> (Z.of_nat (B + e) < INT_MAX)%Z ->
    exists st', perform st os [mkObj Enumerator (Some n)] = Ok st' /\ pinv (B + e) n' (ts ++ [Some Enumerator]) st'.
  Proof.
    intros V Rn T Le L. apply (perform_ok B n ts st os n' [mkObj Enumerator (Some n)] _ _ e V T); auto.
    - cbn [map ptrs flat_map of_obj o_ptr app]. rewrite perm_swap. apply perm_skip, Permutation_cons_append.
    - cbn [map writers flat_map of_obj o_ptr app w_known o_kind]. rewrite app_nil_r. apply incl_refl.
    - intros x [<-|[]]. exists n. split; [auto|]. split; cbn; auto.
  Qed.

  Lemma fresh_ok B n ts st : pinv B n ts st -> fresh st = n.
  Proof. intros V. apply (a_len _ _ _ _ _ _ (p_at _ _ _ _ V)). Qed.

  Lemma writers_rank B n ts st y l : pinv B n ts st -> In (y, l) (writers (st_objs st)) -> rank y = 3.
  Proof.
    intros V I1. apply in_flat_map in I1 as ([z|] & Iz & Jz); [|destruct Jz]. cbn [of_obj] in Jz. destruct (o_ptr z) as [q|] eqn:Eq; [|destruct Jz].
    apply In_nth_error in Iz as (o & Eo). destruct (p_good _ _ _ _ V _ _ Eo) as (p & Ep & Rp & _). assert (p = q) as -> by congruence.
    unfold w_known in Jz. destruct (o_kind z); try contradiction; destruct Jz as [Jz|[]]. assert (y = q) as -> by congruence. exact Rp.
  Qed.

  Lemma stmt_ok s front rest B ts ts' st : full = front ++ stmt_kinds s ++ rest -> types ts s = Some ts' ->
    pinv B (length front) ts st -> (Z.of_nat (B + effort s) < INT_MAX)%Z ->
    exists st', py_stmt st s = Ok st' /\ pinv (B + effort s) (length (front ++ stmt_kinds s)) ts' st'.
  Proof.
    intros Ef T V L. rewrite app_length. set (n := length front) in *. assert (Fr := fresh_ok _ _ _ _ V). fold n in Fr.
    assert (R0 : rank 0 = 0) by exact F0. assert (Rk := full_low).
    assert (R := fun i p => fun H E => rank_at front s rest p Ef i H E). fold n in R.
    assert (I0 : In 0 (0 :: ptrs (st_objs st))) by now left.
    assert (same : forall e, pinv (B + e) n ts st) by (intros e; destruct V as [A1 A2 A3]; constructor; auto; apply (at_more B); auto; lia).
    destruct s as [k ok|nones keys|k|o|k|o k|o k p|o|o|o|o codes asns f|o other k|o|o|o|o]; cbn [types py_stmt effort] in *; try discriminate; rewrite ?Fr.
    - (* Create *)
      destruct k; cbn [simple orb] in T; try discriminate; destruct ok; cbn [stmt_kinds length construct] in *;
      try (exists st; split; [reflexivity|]; rewrite Nat.add_0_r; assert (ts' = ts) as -> by congruence; apply same);
      [apply (f_equal (fun x => match x with Some y => y | None => [] end)) in T; subst ts'; rewrite Nat.add_1_r; apply plain_ok; cbn [length object_new]; auto; try lia;
         [apply (R 0); cbn; lia|apply t_alone; auto; apply (R 0); cbn; lia]..|].
      apply (f_equal (fun x => match x with Some y => y | None => [] end)) in T; subst ts'.
      assert (R1 : rank n = 2) by (apply (R 0); cbn; lia). assert (R2 : rank (S n) = 1) by (apply (R 1); cbn; lia).
      replace (n + 2) with (S (S n)) by lia. eapply (perform_ok _ _ _ _ _ _ [mkObj Database (Some n)]); [exact V|apply (t_database rank Rk); auto| | | |cbn; lia|auto].
      + cbn [map ptrs flat_map of_obj o_ptr app]. rewrite perm_swap. apply perm_skip, Permutation_cons_append.
      + cbn [map writers flat_map of_obj o_ptr app w_known o_kind]. rewrite app_nil_r. apply incl_refl.
      + intros x [<-|[]]. exists n. split; [auto|]. split; cbn; auto.
    - (* Create_writer *)
      assert (ts' = ts ++ [Some Writer]) as -> by congruence. cbn [stmt_kinds length construct] in *.
      assert (R1 : rank n = 3) by (apply (R 0); cbn; lia). assert (R2 : rank (w_pool_of n) = 1) by (apply (R 1); cbn; unfold w_pool_of; lia).
      assert (R3 : rank (w_tree_of n) = 2) by (apply (R 2); cbn; unfold w_tree_of; lia). assert (R4 : rank (w_ases_of n) = 2) by (apply (R 3); cbn; unfold w_ases_of; lia).
      assert (R5 : rank (w_countries_of n) = 2) by (apply (R 4); cbn; unfold w_countries_of; lia).
      destruct (perform_ok B n ts st (writer_new n 0) (n + 5) [mkObj Writer (Some n)] _ _ 32 V (t_writer rank Rk n _ _ I0 R0 R1 R2 R3 R4 R5)) as (st' & E' & V').
      + cbn [map ptrs flat_map of_obj o_ptr app]. rewrite perm_swap. apply perm_skip, Permutation_cons_append.
      + cbn [map writers flat_map of_obj o_ptr app]. unfold w_known. cbn [o_kind app]. apply incl_app; [apply incl_tl, incl_refl|]. intros x [<-|[]]. now left.
      + intros x [<-|[]]. exists n. split; [auto|]. split; cbn; auto.
      + cbn. lia.
      + auto.
      + rewrite E'. cbn [bind]. eexists. split; [reflexivity|]. destruct V' as [A1 A2 A3]. constructor; auto.
    - (* Made *)
      destruct (simple k) eqn:Sk; [|discriminate]. assert (ts' = ts ++ [Some k]) as -> by congruence. assert (Pk : is_plain k = true) by (destruct k; auto). rewrite Pk.
      cbn [stmt_kinds length] in *. rewrite Nat.add_1_r. assert (R1 : rank n = 1) by (apply (R 0); cbn; lia). apply plain_ok; auto; [apply t_plain; auto|cbn; lia].
    - (* Result *)
      destruct (simple k) eqn:Sk; [|discriminate]. cbn [andb] in T. destruct (has ts o Database || has ts o Enumerator) eqn:Hd; [|discriminate].
      assert (ts' = ts ++ [Some k]) as -> by congruence. assert (Pk : is_plain k = true) by (destruct k; auto). rewrite Pk.
      cbn [stmt_kinds length] in *. rewrite Nat.add_1_r. assert (R1 : rank n = 1) by (apply (R 0); cbn; lia).
      assert (Po : exists p, pointer st o is_source = Ok p).
      { apply orb_prop in Hd as [Hd|Hd]; apply has_ok in Hd; destruct (object_ok _ _ _ _ _ _ V Hd) as (x & p & _ & _ & _ & _ & _ & _ & _ & Hp); exists p; now apply Hp. }
      destruct Po as (p & Ep). rewrite Ep. cbn [bind]. apply plain_ok; auto; [apply t_plain; auto|cbn; lia].
    - (* Add *)
      destruct (simple k) eqn:Sk; [|discriminate]. cbn [andb] in T. destruct (has ts o Writer) eqn:Hd; [|discriminate].
      assert (ts' = ts ++ [Some k]) as -> by congruence. assert (Pk : is_plain k = true) by (destruct k; auto). rewrite Pk.
      cbn [stmt_kinds length] in *. rewrite Nat.add_1_r. assert (R1 : rank n = 1) by (apply (R 0); cbn; lia).
      apply has_ok in Hd. destruct (object_ok _ _ _ _ _ _ V Hd) as (x & w & Ex & Kx & Pw & _ & Iw & (w' & Pw' & _ & Wr) & _ & Hp). assert (w' = w) as -> by congruence.
      rewrite Kx in Wr. rewrite Hp by reflexivity. cbn [bind]. apply plain_ok; auto; [|destruct p; cbn; lia].
      eapply tri_app; [apply (t_obj rank Rk); auto; rewrite R0, R1; lia|].
      apply (tri_app _ _ _ _ _ (S n) (n :: 0 :: ptrs (st_objs st)) (writers (st_objs st))).
      { destruct p; [|eapply tri_conv; [apply tri_nil|reflexivity|apply incl_refl|reflexivity|apply incl_tl, incl_refl]].
        unfold list_push. eapply tri_cons; [apply (t_ref rank Rk); now left|]. apply (t_give rank Rk); [reflexivity| | |].
        - right. exists w, (writer_slots w). split; [right; eapply writers_in; eauto|]. unfold place, writer_slots. destruct k; try discriminate; cbn; auto.
        - destruct Wr as (W1 & W2 & W3). rewrite R1. unfold place. destruct k; try discriminate; lia.
        - intros y l I1. split; [apply writers_own in I1 as [I1 _]; right; now right|]. left. split; [|now right].
          intros ->. apply (writers_rank _ _ _ _ _ _ V) in I1. destruct Wr as (W1 & W2 & W3). unfold place in I1. destruct k; try discriminate; lia. }
      apply (t_wrap rank Rk); now left.
    - (* Iterate *)
      destruct (has ts o Database) eqn:Hd; [|discriminate]. assert (ts' = ts ++ [Some Enumerator]) as -> by congruence. cbn [stmt_kinds length] in *.
      assert (R1 : rank n = 3) by (apply (R 0); cbn; lia). assert (R2 : rank (S n) = 2) by (apply (R 1); cbn; lia).
      apply has_ok in Hd. destruct (object_ok _ _ _ _ _ _ V Hd) as (x & d & _ & _ & _ & Rd & Id & _ & _ & Hp). rewrite Hp by reflexivity. cbn [bind].
      replace (n + 2) with (S (S n)) by lia. apply enum_ok; auto; [|cbn; lia].
      eapply tri_app; [apply (t_enum rank Rk); auto; now right|]. apply (t_wrap rank Rk); now left.
    - (* Listed *)
      destruct (has ts o Database) eqn:Hd; [|discriminate]. assert (ts' = ts ++ [Some Enumerator]) as -> by congruence. cbn [stmt_kinds length] in *.
      assert (R1 : rank n = 3) by (apply (R 0); cbn; lia). assert (R2 : rank (S n) = 2) by (apply (R 1); cbn; lia).
      apply has_ok in Hd. destruct (object_ok _ _ _ _ _ _ V Hd) as (x & d & _ & _ & _ & Rd & Id & _ & _ & Hp). rewrite Hp by reflexivity. cbn [bind].
      replace (n + 2) with (S (S n)) by lia. apply enum_ok; auto; [|cbn; lia].
      apply (t_enum rank Rk); auto; now right.
    - (* Search *)
      destruct f; try discriminate. destruct (has ts o Database) eqn:Hd; [|discriminate]. assert (ts' = ts ++ [Some Enumerator]) as -> by congruence.
      cbn [stmt_kinds] in *.
      assert (R1 : rank n = 3) by (apply (R 0); cbn; lia). assert (R2 : rank (S n) = 2) by (apply (R 1); cbn; lia).
      apply has_ok in Hd. destruct (object_ok _ _ _ _ _ _ V Hd) as (x & d & _ & _ & _ & Rd & Id & _ & _ & Hp). rewrite Hp by reflexivity. cbn [bind].
      change (search_fails codes asns Fine) with false. cbv iota.
      assert (Kw : forall y l, In (y, l) (writers (st_objs st)) -> y <> n).
      { intros y l I1 ->. apply writers_own in I1 as [I1 _]. pose proof (at_below _ _ _ _ _ _ _ (p_at _ _ _ _ V) (or_intror I1)). lia. }
      apply enum_ok; auto.
      + unfold search_ops. set (l2 := match codes with Some c => n + 2 + S (length c) | None => n + 2 end).
        replace (n + length ([3; 2] ++ list_kinds codes ++ list_kinds asns)) with (l2 + length (list_kinds asns))
          by (unfold l2; rewrite !app_length; destruct codes; cbn [list_kinds length]; rewrite ?repeat_length; lia).
        eapply tri_app; [apply (t_enum rank Rk); auto; now right|].
        eapply (tri_app _ _ _ _ _ l2 (n :: 0 :: ptrs (st_objs st)) (writers (st_objs st))).
        { unfold l2. replace (S (S n)) with (n + 2) by lia. destruct codes as [c|]; [|apply tri_nil]. apply (t_search_list rank Rk); auto; [now right; left|now left| |].
          - rewrite (R 2) by (cbn; lia). reflexivity.
          - intros i Hi. rewrite (R (3 + i)) by (cbn [app length list_kinds]; rewrite ?app_length, ?repeat_length; cbn [length]; rewrite ?repeat_length; lia).
            cbn [app list_kinds nth Nat.add]. rewrite app_nth1 by (rewrite repeat_length; lia). apply nth_one. auto. }
        eapply (tri_app _ _ _ _ _ (l2 + length (list_kinds asns)) (n :: 0 :: ptrs (st_objs st)) (writers (st_objs st))); [|apply (t_wrap rank Rk); now left].
        assert (Rl : forall i, i < length (list_kinds asns) -> rank (l2 + i) = nth i (list_kinds asns) 0).
        { intros i Hi. assert (E2 : l2 = n + (2 + length (list_kinds codes))) by (unfold l2; destruct codes; cbn [list_kinds length]; rewrite ?repeat_length; lia).
          rewrite (R (2 + length (list_kinds codes) + i)); [|cbn [app length]; rewrite app_length; lia|lia].
          cbn [app Nat.add nth]. rewrite app_nth2 by lia. f_equal. lia. }
        destruct asns as [a|]; [|rewrite Nat.add_0_r; apply tri_nil]. cbn [list_kinds length] in *. rewrite repeat_length in *. apply (t_search_list rank Rk); auto; [now right; left|now left| |].
        * rewrite <- (Nat.add_0_r l2). rewrite Rl by lia. reflexivity.
        * intros i Hi. replace (S l2 + i) with (l2 + S i) by lia. rewrite Rl by lia. cbn [nth]. apply nth_one. auto.
      + unfold search_ops. rewrite !app_length. destruct codes as [c|]; destruct asns as [a|]; cbn [items]; rewrite ?app_length;
          repeat match goal with |- context [length (search_list ?e ?l ?c)] => pose proof (len_list e l c); generalize dependent (length (search_list e l c)); intros end; cbn [length wrap py_enumerator_new object_new app]; lia.
    - (* Exclude *)
      destruct (has ts o Network) eqn:Hd; [|discriminate]. destruct (has ts other Network) eqn:Hd2; [|discriminate]. cbn [andb] in T.
      assert (ts' = ts ++ repeat (Some Network) k) as -> by congruence. cbn [stmt_kinds length] in *. rewrite repeat_length in *.
      apply has_ok in Hd. destruct (object_ok _ _ _ _ _ _ V Hd) as (x & d & _ & _ & _ & _ & _ & _ & _ & Hp). rewrite Hp by reflexivity. cbn [bind].
      apply has_ok in Hd2. destruct (object_ok _ _ _ _ _ _ V Hd2) as (x2 & d2 & _ & _ & _ & _ & _ & _ & _ & Hp2). rewrite Hp2 by reflexivity. cbn [bind].
      assert (R1 : rank n = 2) by (apply (R 0); cbn; lia).
      assert (R2 : forall i, i < k -> rank (S n + i) = 1) by (intros i Hi; rewrite (R (S i)) by lia; cbn [nth]; apply nth_one; auto).
      destruct (perform_ok B n ts st (exclude n k) (n + S k) (map (fun i => mkObj Network (Some (S n + i))) (rev (seq 0 k))) _ _ (32 + 9 * k) V
        (t_exclude rank Rk n _ _ k I0 R0 R1 R2)) as (st' & E' & V').
      + assert (Hm : forall m, map (fun i => S n + i) (seq m k) = seq (S n + m) k).
        { clear. induction k as [|k IH]; intros m; cbn [seq map]; auto. rewrite IH. f_equal. f_equal. lia. }
        specialize (Hm 0). rewrite Nat.add_0_r in Hm. rewrite (news_ptrs (fun i => S n + i)), map_rev, Hm. rewrite <- Permutation_rev.
        rewrite <- Permutation_middle. apply perm_skip, Permutation_app_comm.
      + rewrite news_writers, app_nil_r. apply incl_refl.
      + intros y I1. apply in_map_iff in I1 as (i & <- & Ii). apply in_rev, in_seq in Ii. exists (S n + i). split; [auto|]. split; [apply R2; lia|exact Logic.I].
      + unfold exclude. rewrite !app_length, len_push, len_pop. cbn. lia.
      + auto.
      + exists st'. split; auto. rewrite <- (repeat_types k (fun i => S n + i) (rev (seq 0 k))); auto. now rewrite rev_length, seq_length.
    - (* Verify *)
      destruct (has ts o Database) eqn:Hd; [|discriminate]. assert (ts' = ts) as -> by congruence. cbn [stmt_kinds length]. rewrite Nat.add_0_r.
      apply has_ok in Hd. destruct (object_ok _ _ _ _ _ _ V Hd) as (x & d & _ & _ & _ & _ & _ & _ & _ & Hp). rewrite Hp by reflexivity. cbn [bind].
      eexists. split; [reflexivity|]. destruct (same 32) as [A1 A2 A3]. constructor; auto.
    - (* Use *)
      destruct (nth_error ts o) as [[k|]|] eqn:Hd; try discriminate. assert (ts' = ts) as -> by congruence. cbn [stmt_kinds length]. rewrite Nat.add_0_r.
      destruct (object_ok _ _ _ _ _ _ V Hd) as (x & d & _ & _ & _ & _ & _ & _ & _ & Hp). rewrite Hp by reflexivity. cbn [bind]. exists st. split; auto.
    - (* Delete *)
      destruct (nth_error ts o) as [[k|]|] eqn:Hd; try discriminate. assert (ts' = upd ts o None) as -> by congruence. cbn [stmt_kinds length]. rewrite Nat.add_0_r.
      destruct (object_ok _ _ _ _ _ _ V Hd) as (x & d & Eo & _ & Pd & _ & _ & _ & _ & _). unfold object. rewrite Eo. cbn [bind]. rewrite Pd.
      destruct V as [A1 A2 A3].
      destruct (t_unref rank Rk n (0 :: ptrs (st_objs st)) (writers (st_objs st)) d (0 :: ptrs (upd (st_objs st) o None)) (writers (upd (st_objs st) o None))) with (B := B) (s := st_c st) as (s' & E' & A').
      + rewrite (ptrs_upd _ _ _ _ Eo Pd). apply perm_swap.
      + intros y l I1. split; [now apply writers_upd in I1|]. apply writers_own in I1 as [I1 _]. now right.
      + cbn [length]. lia.
      + auto.
      + unfold perform. rewrite E'. cbn [bind map]. rewrite app_nil_r. eexists. split; [reflexivity|]. unfold set_ptr. constructor; cbn [st_c st_objs st_none st_streams].
        * apply (at_more (B + 1)); [lia|]. exact A'.
        * now rewrite map_upd, A2.
        * intros o' y E1. apply nth_error_upd in E1 as [(_ & E1 & _)|(_ & E1)]; [discriminate|eauto].
  Qed.

  Lemma run_ok : forall l front B ts ts' st, full = front ++ flat_map stmt_kinds l -> typed ts l = Some ts' ->
    pinv B (length front) ts st -> (Z.of_nat (B + efforts l) < INT_MAX)%Z ->
    exists st', py_run st l = Ok st' /\ pinv (B + efforts l) (length full) ts' st'.
  Proof.
    induction l as [|s l IH]; intros front B ts ts' st Ef T V L; cbn [typed flat_map py_run efforts fold_right] in *.
    - rewrite app_nil_r in Ef. exists st. split; auto. rewrite Nat.add_0_r, Ef. assert (ts' = ts) as -> by congruence. exact V.
    - fold (efforts l) in *. destruct (types ts s) as [t1|] eqn:T1; [|discriminate].
      destruct (stmt_ok s front (flat_map stmt_kinds l) B ts t1 st Ef T1 V ltac:(lia)) as (s1 & E1 & V1). rewrite E1. cbn [bind].
      destruct (IH (front ++ stmt_kinds s) (B + effort s) t1 ts' s1) as (s2 & E2 & V2); auto; [now rewrite <- app_assoc|lia|]. exists s2. split; auto. now rewrite Nat.add_assoc.
  Qed.
  Lemma start_ok : pinv 1 1 [] imported.
  Proof.
    constructor; cbn [st_objs imported]; auto; [|intros [|o] x; discriminate].
    constructor; cbn [st_c imported rs_heap rs_own]; auto; [|intros [|[|p]] c E; try discriminate; assert (c = mkCell 1 [] 0) as -> by (cbn in E; congruence); cbn; lia|intros x l []].
    constructor; cbn [st_c imported rs_heap rs_own].
    - intros [|[|p]] c E; try discriminate. assert (c = mkCell 1 [] 0) as -> by (cbn in E; congruence). reflexivity.
    - intros p [<-|[]]. cbn. lia.
    - intros [|[|p]] c q E; try discriminate. assert (c = mkCell 1 [] 0) as -> by (cbn in E; congruence). intros [].
    - intros [|[|p]] c E; try discriminate. assert (c = mkCell 1 [] 0) as -> by (cbn in E; congruence). reflexivity.
    - intros p [].
  Qed.
  Lemma kept_reach B n ts st p : pinv B n ts st -> kept st p <-> reach (st_c st) p.
  Proof.
    intros [A _ _]. split.
    - induction 1 as [|o x p E P|x c p _ R E I1]; [eapply at_reach; eauto; now left|eapply at_reach; eauto; right; eapply ptrs_in; eauto|eapply r_slot; eauto].
    - induction 1 as [p I1|x c p R K E I1]; [|eapply k_slot; eauto].
      apply (Permutation_in _ (a_own _ _ _ _ _ _ A)) in I1 as [<-|I1]; [constructor|]. apply in_flat_map in I1 as ([x|] & Ix & Jx); [|destruct Jx].
      cbn [of_obj] in Jx. destruct (o_ptr x) as [q|] eqn:Eq; [|destruct Jx]. destruct Jx as [<-|[]]. apply In_nth_error in Ix as (o & Eo). eapply k_obj; eauto.
  Qed.
  Lemma pinv_sound B n ts st : pinv B n ts st -> sound st.
  Proof.
    intros V. pose proof (a_inv _ _ _ _ _ _ (p_at _ _ _ _ V)) as Sv. split.
    - intros p K. apply (kept_reach _ _ _ _ _ V) in K. destruct (reach_live rank _ _ Sv K) as [Kp Lp]. destruct (inv_live _ _ _ _ _ Sv Kp Lp) as (c & E & _ & F & _). eauto.
    - intros p c E N. eapply (lost_freed rank); eauto using full_low. intros R. apply N. now apply (kept_reach _ _ _ _ _ V).
  Qed.
  Lemma unload_ok B n ts st : pinv B n ts st -> (Z.of_nat (B + 1) < INT_MAX)%Z -> (forall t, In t ts -> t = None) ->
    exists st', unload st = Ok st' /\ forall p c, nth_error (rs_heap (st_c st')) p = Some c -> frees c = 1.
  Proof.
    intros [A T G] L N. assert (P : ptrs (st_objs st) = []).
    { destruct (ptrs (st_objs st)) as [|p l] eqn:E; auto. exfalso. assert (I1 : In p (ptrs (st_objs st))) by (rewrite E; now left).
      apply in_flat_map in I1 as ([x|] & Ix & Jx); [|destruct Jx]. assert (I2 : In (option_map o_kind (Some x)) ts) by (rewrite <- T; now apply in_map). apply N in I2. discriminate. }
    rewrite P in A. destruct (t_unref rank full_low n [0] (writers (st_objs st)) 0 [] []) with (B := B) (s := st_c st) as (s' & E' & A'); auto; [intros x l []|].
    unfold unload, perform. rewrite E'. cbn [bind map]. eexists. split; [reflexivity|]. cbn [st_c]. intros p c E. eapply (lost_freed rank); eauto using full_low; [apply (a_inv _ _ _ _ _ _ A')|].
    intros R. assert (O := a_own _ _ _ _ _ _ A'). apply Permutation_sym, Permutation_nil in O. clear E; induction R as [q I1|x d q R IH Ed Iq]; [rewrite O in I1; destruct I1|eauto].
  Qed.
End Program.

Lemma full_of l : nth 0 (0 :: flat_map stmt_kinds l) 0 = 0 /\ Forall (fun x => x < depth) (0 :: flat_map stmt_kinds l).
Proof.
  split; [reflexivity|]. constructor; [unfold depth; lia|]. induction l as [|s l IH]; cbn [flat_map]; [constructor|]. apply Forall_app. split; auto using kinds_low.
Qed.
Lemma program_ok l ts : few_references l -> typed [] l = Some ts ->
  exists st, py_run imported l = Ok st /\ map (option_map o_kind) (st_objs st) = ts /\ sound st.
Proof.
  intros F T. destruct (full_of l) as [F0 Fl]. unfold few_references in F.
  destruct (run_ok (0 :: flat_map stmt_kinds l) F0 Fl l [0] 1 [] ts imported) as (st & E & V); auto; [now apply start_ok|].
  exists st. split; auto. split; [apply (p_types _ _ _ _ _ V)|]. eapply pinv_sound; eauto.
Qed.
Lemma program_end l ts : few_references (l ++ [Delete 0]) -> typed [] l = Some ts -> (forall t, In t ts -> t = None) ->
  exists st st', py_run imported l = Ok st /\ unload st = Ok st' /\ forall p c, nth_error (rs_heap (st_c st')) p = Some c -> frees c = 1.
Proof.
  intros F T N. destruct (full_of l) as [F0 Fl]. unfold few_references, efforts in F. rewrite fold_right_app in F. cbn [fold_right effort] in F.
  assert (Ea : forall l k, fold_right (fun s n => effort s + n) k l = efforts l + k) by (clear; induction l as [|s l IH]; intros k; cbn [fold_right efforts]; auto; rewrite IH; unfold efforts; lia).
  rewrite Ea in F. destruct (run_ok (0 :: flat_map stmt_kinds l) F0 Fl l [0] 1 [] ts imported) as (st & E & V); auto; [now apply start_ok|lia|].
  destruct (unload_ok _ F0 Fl _ _ _ _ V ltac:(lia) N) as (st' & E' & H). exists st, st'. auto.
Qed.
Lemma perform_same st os new st' : perform st os new = Ok st' -> st_none st' = st_none st /\ st_streams st' = st_streams st.
Proof. unfold perform. destruct (do_ops depth (st_c st) os) as [a| | |]; cbn [bind]; try discriminate. intros E. assert (st' = mkState a (st_objs st ++ map Some new) (st_none st) (st_streams st)) as -> by congruence. auto. Qed.
Lemma stmt_accounts st s st' : py_stmt st s = Ok st' -> st_none st' = (st_none st - nones [s])%Z /\ st_streams st' = st_streams st + streams [s].
Proof.
  assert (D : forall a, perform st (fst a) (snd a) = Ok st' -> st_none st' = (st_none st - 0)%Z /\ st_streams st' = st_streams st + 0).
  { intros [os new] E. apply perform_same in E as [-> ->]. split; lia. }
  assert (D2 : forall a o x, (do t <- perform st (fst a) (snd a); Ok (set_ptr t o x)) = Ok st' -> st_none st' = (st_none st - 0)%Z /\ st_streams st' = st_streams st + 0).
  { intros [os new] o x E. cbn [fst snd] in E. destruct (perform st os new) as [t| | |] eqn:Et; cbn [bind] in E; try discriminate. apply perform_same in Et as [En Es].
    assert (st' = set_ptr t o x) as -> by congruence. cbn [set_ptr st_none st_streams]. rewrite En, Es. split; lia. }
  assert (D3 : Ok st = Ok st' -> st_none st' = (st_none st - 0)%Z /\ st_streams st' = st_streams st + 0) by (intros E; assert (st' = st) as -> by congruence; split; lia).
  destruct s as [k ok|nn keys|k|o|k|o k|o k p|o|o|o|o codes asns f|o other k|o|o|o|o]; cbn [py_stmt nones streams fold_right]; intros E;
    repeat match type of E with bind ?a _ = Ok _ => match a with perform _ _ _ => fail 1 | _ => let X := fresh "X" in destruct a as [X| | |] eqn:?; cbn [bind] in E; try discriminate end end;
    try match type of E with (if is_plain ?k then _ else _) = _ => destruct (is_plain k); try discriminate end;
    repeat match type of E with bind ?a _ = Ok _ => match a with perform _ _ _ => fail 1 | _ => let X := fresh "X" in destruct a as [X| | |] eqn:?; cbn [bind] in E; try discriminate end end;
    try exact (D (_, _) E); try exact (D2 (_, _) _ _ E); try exact (D3 E).
  - destruct k; try discriminate; destruct ok; try exact (D3 E); exact (D (_, _) E).
  - destruct (perform st _ _) as [t| | |] eqn:Et in E; cbn [bind] in E; try discriminate. apply perform_same in Et as [En Es].
    apply (f_equal (fun x => match x with Ok y => y | _ => st end)) in E. subst st'. cbn [st_none st_streams]. rewrite En, Es. split; lia.
  - destruct (o_kind X); try discriminate; exact (D2 (_, _) _ _ E).
  - apply (f_equal (fun x => match x with Ok y => y | _ => st end)) in E. subst st'. cbn [st_none st_streams]. split; lia.
  - destruct (o_ptr X); [exact (D2 (_, _) _ _ E)|exact (D3 E)].
Qed.
Lemma run_accounts : forall l st st', py_run st l = Ok st' -> st_none st' = (st_none st - nones l)%Z /\ st_streams st' = st_streams st + streams l.
Proof.
  induction l as [|s l IH]; intros st st' E; cbn [py_run] in E; [assert (st' = st) as -> by congruence; cbn; split; lia|].
  destruct (py_stmt st s) as [t| | |] eqn:Et; cbn [bind] in E; try discriminate. apply stmt_accounts in Et as [E1 E2]. apply IH in E as [E3 E4].
  cbn [nones streams fold_right] in *. fold (nones l) in *. fold (streams l) in *. split; lia.
Qed.
Definition lost (l : list stmt) (p : nat) : bool :=
  match py_run imported l with
  | Ok st => match unload st with
             | Ok st' => forallb (fun x => match x with None => true | Some _ => false end) (st_objs st) &&
                         match nth_error (rs_heap (st_c st')) p with Some c => frees c =? 0 | None => false end
             | _ => false
             end
  | _ => false
  end.
Lemma lost_leaks l p : lost l p = true -> leaks l.
Proof.
  unfold lost, leaks. destruct (py_run imported l) as [st| | |] eqn:E; try discriminate. destruct (unload st) as [st'| | |] eqn:U; try discriminate.
  intros H. apply andb_prop in H as [A H]. destruct (nth_error (rs_heap (st_c st')) p) as [c|] eqn:C; [|discriminate]. exists st, st', p, c.
  repeat split; auto; [|now apply Nat.eqb_eq]. rewrite forallb_forall in A. intros [x|] I1; auto. specialize (A _ I1). discriminate.
Qed.
Lemma verify_streams k : exists l st, typed [] l <> None /\ py_run imported l = Ok st /\ st_streams st = k.
Proof.
  assert (T : forall k, typed [Some Database] (repeat (Verify 0) k) = Some [Some Database]) by (clear; induction k as [|k IH]; cbn; auto).
  assert (R : forall k st p, pointer st 0 is_database = Ok p -> exists st', py_run st (repeat (Verify 0) k) = Ok st').
  { clear. induction k as [|k IH]; intros st p H; cbn [repeat py_run py_stmt]; [eauto|]. rewrite H. cbn [bind]. apply (IH _ p). exact H. }
  destruct (py_run imported [Create Database true]) as [s0| | |] eqn:E0; try (vm_compute in E0; discriminate).
  destruct (R k s0 1) as (st & E); [assert (s0 = match py_run imported [Create Database true] with Ok x => x | _ => imported end) as -> by (now rewrite E0); vm_compute; reflexivity|].
  exists (Create Database true :: repeat (Verify 0) k), st.
  assert (Er : py_run imported (Create Database true :: repeat (Verify 0) k) = Ok st).
  { cbn [py_run] in E0 |- *. destruct (py_stmt imported (Create Database true)) as [x| | |]; cbn [bind] in *; try discriminate. assert (x = s0) as -> by congruence. exact E. }
  split; [|split; auto].
  - cbn [typed types simple orb app]. rewrite T. discriminate.
  - apply run_accounts in Er as [_ ->]. cbn. clear. induction k as [|k IH]; cbn; auto.
Qed.
