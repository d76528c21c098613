(** Histories of network list operations (C13, C14). *)
From Coq Require Import NArith ZArith List Bool Arith Lia ZifyBool ZifyNat ZifyN Sorting.Sorted.
From Verif Require Import Base LemmasBase ModelAddress LemmasAddress ModelCountryCode ModelNetwork
  LemmasNetwork ModelNetworkList LemmasNetworkList SpecNetwork SpecNetworkList LemmasSpecNetwork.
Import ListNotations.
Open Scope N_scope.

Lemma repr_contents L l : repr L l -> contents L l.
Proof.
  intros [S [rest R]]. split; auto. rewrite S, R, firstn_app, map_length, Nat.sub_diag.
  cbn [firstn]. rewrite app_nil_r. apply firstn_all2. rewrite map_length. lia.
Qed.

Lemma contents_repr L l : contents L l -> repr L l.
Proof.
  intros [S R]. split; auto. exists (skipn (nsize L) (slots L)). rewrite <- R. symmetry. apply firstn_skipn.
Qed.

Lemma sorted_ascending l : sorted l <-> Forall valid_network l /\ ascending l.
Proof.
  split.
  - intros [W S]. split; auto. rewrite Forall_forall in *. intros x Hx. apply valid_net_wf. auto.
  - intros [W S]. split; auto. rewrite Forall_forall in *. intros x Hx. apply valid_net_wf. auto.
Qed.

Definition bank_ok (b : nat -> nlist) (s : nat -> list network) : Prop :=
  forall i, repr (b i) (s i) /\ sorted (s i).

Lemma bank_set b s i L l : bank_ok b s -> repr L l -> sorted l -> bank_ok (set_at b i L) (set_at s i l).
Proof. intros B R S j. unfold set_at. destruct (Nat.eqb_spec j i); auto. Qed.

Lemma removelast_snoc {A} (l : list A) x : removelast (l ++ [x]) = l.
Proof. apply removelast_last. Qed.

Lemma last_snoc {A} (l : list A) x y d : l ++ [x] = y :: d -> last d y = x.
Proof.
  intros E. destruct l as [|a l]; cbn in E; injection E as -> <-; auto.
  apply last_last.
Qed.

Lemma sorted_tl l : sorted l -> sorted (tl l).
Proof. destruct l; auto. intros S. apply sorted_cons in S. cbn. tauto. Qed.

Lemma step_ok b s o : bank_ok b s -> op_ok o ->
  exists b', model_step b o = Ok (b', snd (spec_step s o)) /\ bank_ok b' (fst (spec_step s o)).
Proof.
  intros B O. destruct o as [i n|i|i|i n|i n|i k|i|i|i p|i j]; cbn [model_step spec_step fst snd op_ok] in *;
    destruct (B i) as [R S].
  - apply valid_net_wf in O. destruct (list_push_spec _ _ n R S O) as (L & -> & R'). cbn [bind].
    eexists. split; [reflexivity|]. apply bank_set; auto. now apply sorted_ins.
  - destruct (list_pop_spec _ _ R) as [[E ->]|(l' & n & E & L & -> & R')]; cbn [bind]; rewrite E.
    + eexists. split; [reflexivity|]. apply bank_set; auto. now rewrite E in R. now rewrite E in S.
    + eexists. split.
      * replace (match l' ++ [n] with [] => None | x :: l => Some (last l x) end) with (Some n); [reflexivity|].
        destruct (l' ++ [n]) eqn:E2; [destruct l'; discriminate|]. f_equal. symmetry. eapply last_snoc; eauto.
      * apply bank_set; auto; rewrite removelast_snoc; auto. rewrite E in S. apply sorted_app in S. tauto.
  - destruct (list_pop_first_spec _ _ R) as [[E ->]|(l' & n & E & L & -> & R')]; cbn [bind]; rewrite E.
    + eexists. split; [reflexivity|]. apply bank_set; auto. now rewrite E in R. now rewrite E in S.
    + eexists. split; [reflexivity|]. apply bank_set; auto. cbn. rewrite E in S. apply sorted_tl in S. auto.
  - apply valid_net_wf in O. destruct (list_remove_spec _ _ n R S O) as (L & -> & R'). cbn [bind].
    eexists. split; [reflexivity|]. apply bank_set; auto. now apply sorted_del.
  - apply valid_net_wf in O. rewrite (list_contains_spec _ _ n R S O). cbn [bind].
    eexists. split; [reflexivity|]. auto.
  - rewrite (list_get_spec _ _ k R). cbn [bind]. eexists. split; [reflexivity|]. auto.
  - destruct R as [-> _]. eexists. split; [reflexivity|]. auto.
  - destruct (list_clear_spec _ _ R) as (L & -> & R'). cbn [bind].
    eexists. split; [reflexivity|]. apply bank_set; auto. apply sorted_nil.
  - destruct (list_rm_spec _ _ p R) as (L & -> & R'). cbn [bind].
    eexists. split; [reflexivity|]. replace (filter _ (s i)) with (drop_long p (s i)).
    + apply bank_set; auto. now apply sorted_filter.
    + apply filter_ext. intros a. lia.
  - destruct (B j) as [Rj Sj].
    destruct (list_merge_spec _ _ _ _ R S Rj (s_wf _ Sj)) as (L & -> & R'). cbn [bind].
    eexists. split; [reflexivity|]. apply bank_set; auto. apply sorted_ins_all; auto. apply Sj.
Qed.

Lemma run_ok os : forall b s, bank_ok b s -> Forall op_ok os ->
  exists b', model_run b os = Ok (b', snd (spec_run s os)) /\ bank_ok b' (fst (spec_run s os)).
Proof.
  induction os as [|o os IH]; intros b s B F; cbn [model_run spec_run].
  - eexists. split; [reflexivity|]. auto.
  - inversion F as [|? ? O F']; subst. destruct (step_ok b s o B O) as (b1 & -> & B1). cbn [bind].
    destruct (spec_step s o) as [s1 r1]. cbn [fst snd] in *.
    destruct (IH b1 s1 B1 F') as (b2 & -> & B2). cbn [bind].
    destruct (spec_run s1 os) as [s2 r2]. cbn [fst snd] in *. eexists. split; [reflexivity|auto].
Qed.

Lemma history os : Forall op_ok os ->
  exists b', model_run (fun _ => list_new) os = Ok (b', snd (spec_run (fun _ => []) os)) /\
  forall i, contents (b' i) (fst (spec_run (fun _ => []) os) i) /\
            ascending (fst (spec_run (fun _ => []) os) i) /\
            Forall valid_network (fst (spec_run (fun _ => []) os) i).
Proof.
  intros F. destruct (run_ok os (fun _ => list_new) (fun _ => [])) as (b' & E & B); auto.
  { intros i. split; [apply list_new_repr|apply sorted_nil]. }
  exists b'. split; auto. intros i. destruct (B i) as [R S]. split; [now apply repr_contents|].
  apply sorted_ascending in S. tauto.
Qed.

Lemma history_safe os : Forall op_ok os ->
  model_run (fun _ => list_new) os <> UB /\ model_run (fun _ => list_new) os <> Fuel.
Proof. intros F. destruct (history os F) as (b' & -> & _). split; discriminate. Qed.

(** what the specification functions mean *)
Lemma set_add_meaning n l x : ascending l ->
  In x (set_add n l) <-> In x l \/ (x = n /\ forall y, In y l -> key y <> key n).
Proof.
  intros A. split.
  - intros H. destruct (ins_in n l x H) as [->|]; auto.
    destruct (set_has n l) eqn:M.
    + left. assert (E : set_add n l = l).
      { clear H. induction A as [|a l A IH F]; [discriminate M|]. cbn [set_add set_has existsb] in *.
        rewrite Forall_forall in F. destruct (N.ltb_spec (key n) (key a)).
        - exfalso. apply orb_true_iff in M as [M|M]; [lia|]. apply existsb_exists in M as (y & Hy & E).
          specialize (F _ Hy). lia.
        - destruct (N.eqb_spec (key n) (key a)); auto. f_equal. apply IH.
          apply orb_true_iff in M as [M|M]; auto. lia. }
      now rewrite <- E.
    + right. split; auto. intros y Hy E. unfold set_has in M.
      assert (existsb (fun x => key x =? key n) l = true); [|congruence].
      apply existsb_exists. exists y. split; auto. lia.
  - intros [H|[-> H]].
    + now apply ins_in_old.
    + apply ins_new. apply mem_false_iff. exact H.
Qed.

Lemma set_remove_meaning n l x : In x (set_remove n l) <-> In x l /\ key x <> key n.
Proof. apply del_in. Qed.

Lemma set_has_meaning n l : set_has n l = true <-> exists x, In x l /\ key x = key n.
Proof. apply mem_iff. Qed.

Lemma ascending_extremes x l : ascending (x :: l) ->
  (forall y, In y (x :: l) -> key x <= key y) /\ (forall y, In y (x :: l) -> key y <= key (last l x)).
Proof.
  intros A. inversion A as [|? ? A' F]; subst. rewrite Forall_forall in F. split.
  - intros y [<-|Hy]; [lia|]. specialize (F _ Hy). lia.
  - clear A. revert x F. induction A' as [|a l A IH G]; intros x F y Hy.
    + destruct Hy as [<-|[]]. cbn. lia.
    + rewrite Forall_forall in G. assert (E : last (a :: l) x = last l a).
      { clear. revert a x. induction l as [|b l IH]; intros a x; auto.
        change (last (b :: l) x = last (b :: l) a). rewrite (IH b x), (IH b a). reflexivity. }
      rewrite E. destruct Hy as [<-|Hy].
      * assert (key x < key a) by (apply F; cbn; auto).
        assert (key a <= key (last l a)) by (apply IH; [auto|cbn; auto]). lia.
      * apply IH; auto.
Qed.
