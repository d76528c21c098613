(** Bogon enumeration *)
From Coq Require Import NArith ZArith List Bool Arith Lia ZifyBool ZifyNat ZifyN Sorting.Sorted.
From Verif Require Import Base LemmasBase ModelAddress LemmasAddress ModelCountryCode ModelNetwork SpecNetwork LemmasNetwork LemmasSpecNetwork
  LemmasSpecAddress ModelNetworkList LemmasNetworkList LemmasExclude LemmasSummarize ModelObjects ModelFile ModelDatabase ModelEnum SpecEnum
  LemmasEnum LemmasEnumDb LemmasEnumSafe LemmasEnumFlat.
Import ListNotations.
Open Scope N_scope.

(** ** gaps, without the model *)
Definition zero (f : family) : N := match f with AF_INET => 65535 * 2 ^ 32 | AF_INET6 => 0 end.
Definition final (f : family) : N := match f with AF_INET => 65536 * 2 ^ 32 - 1 | AF_INET6 => 2 ^ 128 - 1 end.
Definition asg (Q : list network) (f : family) (v : N) : Prop := exists n, In n Q /\ n_family n = f /\ inb n v.
Definition act (Q : list network) (f : family) (g : N) : Prop := g <> zero f \/ exists n, In n Q /\ n_family n = f.

Record inv (Q : list network) (f : family) (g : N) : Prop := {
  i_range : g = zero f \/ (zero f < g <= final f /\ (f = AF_INET6 -> 2 ^ 49 <= g));
  i_side : forall n, In n Q -> n_family n = f -> hi n < g \/ g <= lo n;
  i_ok : forall n, In n Q -> n_family n = f -> (f = AF_INET6 -> 2 ^ 49 <= lo n) /\ lo n <> zero f /\ hi n <> final f;
  i_lonely : act Q f g -> forall v, g <= v <= final f -> ~ asg Q f v -> v = g \/ asg Q f (v - 1) -> v = final f \/ asg Q f (v + 1) -> False;
  i_host : forall n, In n Q -> n_family n = f -> lo n = hi n -> g <= lo n -> lo n <> g /\ forall m, In m Q -> n_family m = f ->
    hi m + 1 = lo n -> exists u, In u Q /\ n_family u = f /\ lo u < lo n /\ lo n <= hi u
}.

Definition is_gap (Q : list network) (f : family) (g a b : N) : Prop :=
  (g <= a <= b /\ b <= final f) /\ (forall v, a <= v <= b -> ~ asg Q f v) /\ (a = g \/ asg Q f (a - 1)) /\ (b = final f \/ asg Q f (b + 1)).

Record found (Q : list network) (f : family) (g : N) (L : list network) : Prop := {
  f_all : act Q f g -> forall v, g <= v <= final f -> ~ asg Q f v -> exists x, In x L /\ n_family x = f /\ inb x v;
  f_some : forall x, In x L -> n_family x = f -> act Q f g /\ exists v, inb x v /\ g <= v <= final f /\ ~ asg Q f v;
  f_exact : (forall a b, is_gap Q f g a b -> exists m, net_wf m /\ lo m = a /\ hi m = b) ->
    forall x v, In x L -> n_family x = f -> inb x v -> g <= v <= final f /\ ~ asg Q f v
}.

Lemma family_zero n : net_wf n -> zero (n_family n) <= lo n.
Proof.
  intros W. rewrite (w_family n W). destruct (mappedb (lo n)) eqn:M; cbn [zero]; [|lia]. apply mappedb_range in M. lia.
Qed.
Lemma family_final n : net_wf n -> hi n <= final (n_family n).
Proof.
  intros W. destruct (n_family n) eqn:F; cbn [final].
  - pose proof (mapped_members n (hi n) W F (inb_hi n W)). lia.
  - pose proof (hi_bound n W). lia.
Qed.

(** two networks, the second of which comes later *)
Lemma later x y : net_wf x -> net_wf y -> K x < K y -> (lo x <= lo y /\ hi y <= hi x) \/ hi x < lo y.
Proof.
  intros Wx Wy L. pose proof (lo_mono x y Wx Wy L) as L1. destruct (N.lt_ge_cases (hi x) (lo y)) as [|G]; auto. left. split; auto.
  pose proof (lo_le_hi y Wy). assert (Ix : inb x (lo y)) by (unfold inb; lia).
  destruct (le_lt_dec (n_prefix x) (n_prefix y)) as [P|P].
  - apply (nest_bounds x y (lo y)); auto. now apply inb_lo.
  - destruct (nest_bounds y x (lo y)) as [N1 N2]; auto; [now apply inb_lo|lia|]. unfold K in L. lia.
Qed.

Lemma asg_cons n Q f v : asg (n :: Q) f v <-> (n_family n = f /\ inb n v) \/ asg Q f v.
Proof.
  unfold asg. split.
  - intros (m & [<-|I] & H); [auto|]. right. eauto.
  - intros [H|(m & I & H)]; [exists n|exists m]; cbn; auto.
Qed.
Lemma asg_other n Q f v : n_family n <> f -> asg (n :: Q) f v <-> asg Q f v.
Proof. intros H. rewrite asg_cons. tauto. Qed.
Lemma act_other n Q f g : n_family n <> f -> act (n :: Q) f g <-> act Q f g.
Proof.
  intros H. unfold act. split; intros [X|(m & I & F)]; auto; right; [|exists m; cbn; auto].
  destruct I as [<-|I]; [contradiction|]. eauto.
Qed.

Lemma found_other n Q f g L : n_family n <> f -> found Q f g L -> found (n :: Q) f g L.
Proof.
  intros H [F1 F2 F3]. constructor.
  - intros A v V N. apply F1; auto; [now apply act_other in A|]. now rewrite asg_other in N.
  - intros x I F. destruct (F2 x I F) as (A & v & V & R & N). split; [now apply act_other|]. exists v. rewrite asg_other by auto. auto.
  - intros G x v I F V. rewrite asg_other by auto. apply (F3) with x; auto. intros a b (R & N & A & B). apply G.
    split; [exact R|]. split; [intros u U; rewrite asg_other by auto; auto|]. rewrite !asg_other by auto. auto.
Qed.
Lemma inv_other n Q f g : n_family n <> f -> inv (n :: Q) f g -> inv Q f g.
Proof.
  intros H [I1 I2 I3 I4 I5]. constructor; auto.
  - intros m I F. apply I2; cbn; auto.
  - intros m I F. apply I3; cbn; auto.
  - intros A v V N X Y. apply (I4) with v; rewrite ?asg_other, ?act_other by auto; auto.
  - intros m I Fm E Gm. destruct (I5 m (or_intror I) Fm E Gm) as [J1 J2]. split; auto. intros m' I' F' E'.
    destruct (J2 m' (or_intror I') F' E') as (u & [<-|Iu] & Fu & L1 & L2); [contradiction|eauto 6].
Qed.
Lemma found_app Q f g C L : (forall x, In x C -> n_family x <> f) -> found Q f g L -> found Q f g (C ++ L).
Proof.
  intros H [F1 F2 F3]. constructor.
  - intros A v V N. destruct (F1 A v V N) as (x & I & X). exists x. split; auto. apply in_app_iff. auto.
  - intros x I F. apply in_app_iff in I as [I|I]; [contradiction (H x I F)|auto].
  - intros G x v I F V. apply in_app_iff in I as [I|I]; [contradiction (H x I F)|]. eapply F3; eauto.
Qed.
Lemma found_same Q f g L L' : (forall x, In x L' -> In x L) -> (forall x, In x L -> net_wf x) ->
  (forall x, In x L -> exists y, In y L' /\ K y = K x) -> found Q f g L -> found Q f g L'.
Proof.
  intros H1 W H2 [F1 F2 F3]. constructor; auto.
  - intros A v V N. destruct (F1 A v V N) as (x & I & F & X). destruct (H2 x I) as (y & Iy & E). exists y. split; auto.
    pose proof (W x I) as Wx. pose proof (W y (H1 y Iy)) as Wy. assert (E' : lo y = lo x /\ n_prefix y = n_prefix x).
    { unfold K in E. pose proof (w_prefix x Wx). pose proof (w_prefix y Wy). lia. }
    destruct E' as [E1 E2]. split; [rewrite (w_family y Wy), E1, <- (w_family x Wx); exact F|].
    apply inb_iff; auto. apply inb_iff in X; auto. now rewrite E1, E2.
  - intros G x v I. apply F3; auto.
Qed.

(** a network that ends before [g] *)
Lemma act_skip n Q f g : net_wf n -> n_family n = f -> hi n < g -> act Q f g.
Proof. intros W F H. left. pose proof (family_zero n W). rewrite F in *. pose proof (lo_le_hi n W). lia. Qed.
Lemma asg_skip n Q f g v : hi n < g -> g <= v -> asg (n :: Q) f v <-> asg Q f v.
Proof. intros H V. rewrite asg_cons. unfold inb. split; [|auto]. intros [[_ X]|X]; auto. lia. Qed.
Lemma found_skip n Q f g L : net_wf n -> n_family n = f -> hi n < g -> found Q f g L -> found (n :: Q) f g L.
Proof.
  intros W F H [F1 F2 F3]. pose proof (act_skip n Q f g W F H) as A0. constructor.
  - intros A v V N. apply F1; auto. now rewrite (asg_skip n Q f g v) in N by lia.
  - intros x I Fx. destruct (F2 x I Fx) as (A & v & V & R & N). split; [right; exists n; cbn; auto|]. exists v.
    rewrite (asg_skip n Q f g v) by lia. auto.
  - intros G x v I Fx V. assert (X : g <= v <= final f /\ ~ asg Q f v).
    { apply (F3) with x; auto. intros a b (R & N & A & B). apply G. split; [exact R|].
      split; [intros u U; rewrite (asg_skip n Q f g u) by lia; auto|]. rewrite !asg_cons. tauto. }
    split; [apply X|]. rewrite (asg_skip n Q f g v) by lia. apply X.
Qed.
Lemma inv_skip n Q f g : net_wf n -> n_family n = f -> hi n < g -> inv (n :: Q) f g -> inv Q f g.
Proof.
  intros W F H [I1 I2 I3 I4 I5]. constructor; auto.
  - intros m I Fm. apply I2; cbn; auto.
  - intros m I Fm. apply I3; cbn; auto.
  - intros A v V N X Y. apply (I4) with v; auto.
    + right. exists n. cbn. auto.
    + rewrite (asg_skip n Q f g v) by lia. auto.
    + rewrite asg_cons. tauto.
    + rewrite asg_cons. tauto.
  - intros m I Fm E Gm. destruct (I5 m (or_intror I) Fm E Gm) as [J1 J2]. split; auto. intros m' I' F' E'.
    destruct (J2 m' (or_intror I') F' E') as (u & [<-|Iu] & Fu & L1 & L2); [lia|eauto 6].
Qed.

(** a network that starts at [g] or later: the next gap starts behind it *)
Section Step.
Variables (n : network) (Q : list network) (f : family) (g : N).
Hypothesis W : net_wf n.
Hypothesis F : n_family n = f.
Hypothesis WQ : forall m, In m Q -> net_wf m /\ K n < K m.
Hypothesis I0 : inv (n :: Q) f g.
Hypothesis G : g <= lo n.

Lemma step_final : hi n < final f.
Proof. pose proof (family_final n W) as H. rewrite F in H. destruct (i_ok _ _ _ I0 n (or_introl eq_refl) F) as (_ & _ & X). lia. Qed.
Lemma step_act : act (n :: Q) f g.
Proof. right. exists n. cbn. auto. Qed.
Lemma step_act' : act Q f (hi n + 1).
Proof. left. pose proof (family_zero n W). rewrite F in *. pose proof (lo_le_hi n W). lia. Qed.
Lemma step_before v : v < lo n -> ~ asg (n :: Q) f v.
Proof.
  intros V. rewrite asg_cons. unfold inb at 1. intros [[_ X]|(m & Im & _ & X)]; [lia|]. destruct (WQ m Im) as [Wm L].
  pose proof (lo_mono n m W Wm L). unfold inb in X. lia.
Qed.
Lemma step_after v : hi n < v -> asg (n :: Q) f v <-> asg Q f v.
Proof. intros V. rewrite asg_cons. unfold inb at 1. split; [|auto]. intros [[_ X]|X]; auto. lia. Qed.
Lemma step_in v : lo n <= v <= hi n -> asg (n :: Q) f v.
Proof. intros V. rewrite asg_cons. auto. Qed.

Lemma inv_step : inv Q f (hi n + 1).
Proof.
  pose proof step_final as Fi. pose proof (lo_le_hi n W) as Lh. pose proof (family_zero n W) as Fz. rewrite F in Fz.
  destruct (i_ok _ _ _ I0 n (or_introl eq_refl) F) as (O1 & O2 & O3). constructor.
  - right. split; [lia|]. intros Q6. specialize (O1 Q6). lia.
  - intros m Im Fm. destruct (WQ m Im) as [Wm L]. destruct (later n m W Wm L); lia.
  - intros m Im. apply (i_ok _ _ _ I0). now right.
  - intros _ v V N X Y. apply (i_lonely _ _ _ I0 step_act v).
    + lia.
    + rewrite step_after by lia. exact N.
    + right. destruct X as [->|X]; [apply step_in; lia|]. apply asg_cons. auto.
    + destruct Y as [Y|Y]; auto. right. apply asg_cons. auto.
  - intros m Im Fm E Gm. destruct (i_host _ _ _ I0 m (or_intror Im) Fm E ltac:(lia)) as [_ H]. split.
    + intros X. destruct (H n (or_introl eq_refl) F (eq_sym X)) as (u & [<-|Iu] & Fu & L1 & L2); [lia|].
      destruct (WQ u Iu) as [Wu Lu]. destruct (later n u W Wu Lu); lia.
    + intros m' I' F' E'. destruct (H m' (or_intror I') F' E') as (u & [<-|Iu] & Fu & L1 & L2); [lia|eauto 6].
Qed.

(** no gap of one address *)
Lemma step_wide : g < lo n -> g + 1 < lo n.
Proof.
  intros L. destruct (N.eq_dec (g + 1) (lo n)) as [E|]; [|lia]. exfalso. pose proof step_final as Fi. pose proof (lo_le_hi n W).
  apply (i_lonely _ _ _ I0 step_act g); auto; [lia|now apply step_before|]. right. apply step_in. lia.
Qed.

Lemma found_adjacent L : g = lo n -> found Q f (hi n + 1) L -> found (n :: Q) f g L.
Proof.
  intros E [F1 F2 F3]. pose proof step_act' as A1. pose proof (lo_le_hi n W). constructor.
  - intros _ v V N. destruct (N.le_gt_cases v (hi n)); [contradiction N; apply step_in; lia|]. apply F1; auto; [lia|].
    rewrite step_after in N by lia. exact N.
  - intros x I Fx. destruct (F2 x I Fx) as (_ & v & V & R & N). split; [exact step_act|]. exists v. rewrite step_after by lia. split; auto. split; auto. lia.
  - intros Gp x v I Fx V. assert (X : hi n + 1 <= v <= final f /\ ~ asg Q f v).
    { apply (F3) with x; auto. intros a b (R & N & A & B). apply Gp. split; [lia|].
      split; [intros u U; rewrite step_after by lia; auto|]. split.
      - right. destruct A as [->|A]; [apply step_in; lia|]. apply asg_cons. auto.
      - destruct B as [B|B]; auto. right. apply asg_cons. auto. }
    split; [lia|]. rewrite step_after by lia. apply X.
Qed.

Lemma gap_mapped : g < lo n -> mappedb (lo n - 1) = mappedb g.
Proof.
  intros L. pose proof (i_range _ _ _ I0) as R. destruct (i_ok _ _ _ I0 n (or_introl eq_refl) F) as (O1 & O2 & O3). pose proof (lo_le_hi n W) as Lh.
  destruct f.
  - pose proof (mapped_members n (lo n) W F (inb_lo n W)) as M. cbn [zero final] in *.
    replace (mappedb g) with true by (symmetry; apply mappedb_range; lia). apply mappedb_range. lia.
  - specialize (O1 eq_refl). cbn [zero final] in *. assert (R' : g = 0 \/ 2 ^ 49 <= g) by (destruct R as [R|[_ R]]; auto).
    replace (mappedb g) with false; [|symmetry; apply not_true_iff_false; intros M; apply mappedb_range in M; lia].
    apply not_true_iff_false; intros M; apply mappedb_range in M; lia.
Qed.

Lemma found_gap news C L : g + 1 < lo n -> (forall x, In x news -> net_wf x /\ n_family x = f) -> summary g (lo n - 1) news ->
  (forall x, In x C -> In x news) -> (forall x, In x news -> exists y, In y C /\ K y = K x) ->
  found Q f (hi n + 1) L -> found (n :: Q) f g (C ++ L).
Proof.
  intros Lt Wn S0 C1 C2 [F1 F2 F3]. pose proof step_act' as A1. pose proof (lo_le_hi n W). pose proof step_final as Fi.
  assert (X : found (n :: Q) f g (news ++ L)).
  { constructor.
    - intros _ v V N. destruct (N.lt_ge_cases v (lo n)) as [Lv|Lv].
      + destruct S0 as [(x & -> & Sp)|(x1 & x2 & -> & P & I1 & Hh & _ & Sp)].
        * exists x. split; [now left|]. split; [apply Wn; now left|]. eapply spans_cover; eauto. lia.
        * destruct (N.le_gt_cases v (hi x1)).
          -- exists x1. split; [now left|]. split; [apply Wn; now left|]. unfold inb in *. lia.
          -- exists x2. split; [cbn; auto|]. split; [apply Wn; cbn; auto|]. eapply spans_cover; eauto. lia.
      + destruct (N.le_gt_cases v (hi n)); [contradiction N; apply step_in; lia|].
        destruct (F1 A1 v) as (x & I & Fx & Ix); [lia|rewrite step_after in N by lia; exact N|]. exists x. split; auto. apply in_app_iff. auto.
    - intros x I Fx. split; [exact step_act|]. apply in_app_iff in I as [I|I].
      + assert (Y : inb x g \/ inb x (lo n - 1)).
        { destruct S0 as [(y & -> & Sp)|(x1 & x2 & -> & P & I1 & Hh & _ & Sp)].
          - destruct I as [<-|[]]. left. apply Sp.
          - destruct I as [<-|[<-|[]]]; [now left|right; apply Sp]. }
        destruct Y as [Y|Y]; [exists g|exists (lo n - 1)]; (split; [exact Y|]; split; [lia|]); apply step_before; lia.
      + destruct (F2 x I Fx) as (_ & v & V & R & N). exists v. split; auto. split; [lia|]. rewrite step_after by lia. exact N.
    - intros Gp x v I Fx V. apply in_app_iff in I as [I|I].
      + destruct (Gp g (lo n - 1)) as (m & Wm & E1 & E2).
        { split; [lia|]. split; [intros u U; apply step_before; lia|]. split; [now left|]. right. apply step_in. lia. }
        assert (Im : inb m v).
        { apply (summary_exact m news Wm); [lia|rewrite E1, E2; apply gap_mapped; lia|intros y Iy; now apply Wn|now rewrite E1, E2|]. exists x. auto. }
        unfold inb in Im. split; [lia|]. apply step_before. lia.
      + assert (Y : hi n + 1 <= v <= final f /\ ~ asg Q f v).
        { apply (F3) with x; auto. intros a b (R & N & A & B). apply Gp. split; [lia|].
          split; [intros u U; rewrite step_after by lia; auto|]. split.
          - right. destruct A as [->|A]; [apply step_in; lia|]. apply asg_cons. auto.
          - destruct B as [B|B]; auto. right. apply asg_cons. auto. }
        split; [lia|]. rewrite step_after by lia. apply Y. }
  destruct X as [X1 X2 X3]. constructor.
  - intros A v V N. destruct (X1 A v V N) as (x & I & Fx & Ix). apply in_app_iff in I as [I|I].
    + destruct (C2 x I) as (y & Iy & E). exists y. split; [apply in_app_iff; auto|].
      destruct (Wn x I) as [Wx _]. destruct (Wn y (C1 y Iy)) as [Wy Fy]. split; auto.
      assert (E' : lo y = lo x /\ n_prefix y = n_prefix x).
      { unfold K in E. pose proof (w_prefix x Wx). pose proof (w_prefix y Wy). lia. }
      destruct E' as [E1 E2]. apply inb_iff; auto. apply inb_iff in Ix; auto. now rewrite E1, E2.
    + exists x. split; auto. apply in_app_iff. auto.
  - intros x I. apply X2. apply in_app_iff in I as [I|I]; apply in_app_iff; auto.
  - intros Gp x v I. apply X3; auto. apply in_app_iff in I as [I|I]; apply in_app_iff; auto.
Qed.
End Step.

(** the end of the address space *)
Lemma found_end f g news : zero f < g < final f -> mappedb g = mappedb (final f) -> (forall x, In x news -> net_wf x) -> summary g (final f) news ->
  (forall x, In x news -> n_family x = f) -> found [] f g news.
Proof.
  intros R M Wn S0 Fn. assert (A : forall v, ~ asg [] f v) by (intros v (m & [] & _)). constructor.
  - intros _ v V _. destruct S0 as [(x & -> & Sp)|(x1 & x2 & -> & P & I1 & Hh & _ & Sp)].
    + exists x. split; [now left|]. split; [apply Fn; now left|]. eapply spans_cover; eauto.
    + destruct (N.le_gt_cases v (hi x1)).
      * exists x1. split; [now left|]. split; [apply Fn; now left|]. unfold inb in *. lia.
      * exists x2. split; [cbn; auto|]. split; [apply Fn; cbn; auto|]. eapply spans_cover; eauto. lia.
  - intros x I Fx. split; [left; lia|].
    assert (Y : inb x g \/ inb x (final f)).
    { destruct S0 as [(y & -> & Sp)|(x1 & x2 & -> & P & I1 & Hh & _ & Sp)].
      - destruct I as [<-|[]]. left. apply Sp.
      - destruct I as [<-|[<-|[]]]; [now left|right; apply Sp]. }
    destruct Y as [Y|Y]; [exists g|exists (final f)]; (split; [exact Y|]; split; [lia|]); apply A.
  - intros Gp x v I Fx V. destruct (Gp g (final f)) as (m & Wm & E1 & E2).
    { split; [lia|]. split; [intros u U; apply A|]. auto. }
    assert (Im : inb m v).
    { apply (summary_exact m news Wm); [lia|rewrite E1, E2; now symmetry|exact Wn|now rewrite E1, E2|]. exists x. auto. }
    unfold inb in Im. split; [lia|]. apply A.
Qed.
Lemma found_nothing f : found [] f (zero f) [].
Proof.
  constructor.
  - intros [H|(n & [] & _)]. contradiction.
  - intros x [].
  - intros _ x v [].
Qed.

(** ** summarizing a gap *)
Lemma summarize_loop_mono f : forall l a b R, summarize_loop l a b f = Ok R -> forall g, (f <= g)%nat -> summarize_loop l a b g = Ok R.
Proof.
  induction f as [|f IH]; intros l a b R H g L.
  - destruct g; cbn [summarize_loop] in *; destruct (addr_cmp a b <=? 0)%Z; try discriminate; exact H.
  - destruct g as [|g]; [lia|]. cbn [summarize_loop] in *. destruct (addr_cmp a b <=? 0)%Z; [|exact H].
    destruct (addr_common_bits a b) as [c|]; [|discriminate]. destruct (network_new a _) as [n| | |]; try discriminate. cbn [bind] in *.
    destruct (list_push l n) as [l'| | |]; try discriminate. cbn [bind] in *. destruct (addr_all_ones _); [exact H|]. eapply IH; [exact H|lia].
Qed.

Definition plain (x : network) : Prop := n_cc x = (0, 0) /\ n_asn x = 0 /\ n_flags x = 0.

Lemma gap_news e f a b Sl : wf a -> wf b -> val a < val b -> mappedb (val b) = mappedb (val a) -> (if mappedb (val a) then AF_INET else AF_INET6) = f ->
  repr (en_stack e) Sl -> sorted Sl ->
  exists L' news, (forall fuel, (2 <= fuel)%nat -> add_gap e a b fuel = Ok (with_lists e L' (en_subnets e), 0%Z)) /\ repr L' (ins_all Sl news) /\
    (forall x, In x news -> net_wf x /\ n_family x = f /\ plain x) /\ summary (val a) (val b) news.
Proof.
  intros Wa Wb Lt M F R So. assert (Fe : addr_family a = addr_family b) by (rewrite !addr_family_val by auto; now rewrite M).
  destruct (summarize_spec a b (en_stack e) Sl 0 Wa Wb Fe Lt R So) as (L' & news & E & R' & W & X). exists L', news. split; [|split; [|split]].
  - intros fuel Lf. unfold add_gap. replace (list_summarize a b (en_stack e) fuel) with (Ok L'); [reflexivity|]. symmetry.
    unfold list_summarize in *. destruct (negb _); [discriminate|]. destruct (0 <=? _)%Z; [discriminate|]. eapply summarize_loop_mono; eauto.
  - exact R'.
  - intros x I. destruct (W x I) as (Wx & Mx & P). split; auto. split; auto. rewrite (w_family x Wx), Mx. exact F.
  - exact X.
Qed.

Lemma reset_wf f : wf (addr_reset f) /\ val (addr_reset f) = zero f.
Proof. destruct f; (split; [split; [reflexivity|repeat constructor]|reflexivity]). Qed.
Lemma reset_last_wf f : wf (addr_reset_last f) /\ val (addr_reset_last f) = final f.
Proof. destruct f; (split; [split; [reflexivity|repeat constructor]|reflexivity]). Qed.

(** ** the search does not look at the gaps *)
Section Bogon.
Variable beyond : nat -> option N.
Variable d : db.

Definition regap {A} a b (r : outcome (enum * A)) : outcome (enum * A) :=
  match r with Ok (e, v) => Ok (with_gaps e a b, v) | Err c => Err c | UB => UB | Fuel => Fuel end.
Lemma push_gaps e a b off i k : push_node d (with_gaps e a b) off i k = regap a b (push_node d e off i k).
Proof.
  unfold push_node. cbn [with_gaps en_nodes]. destruct (off =? 0); [reflexivity|]. destruct (Nat.leb _ _); [reflexivity|].
  destruct (_ <=? _); [reflexivity|]. destruct (Nat.leb _ _); reflexivity.
Qed.
Lemma step0_gaps e s t : step0 beyond d (with_gaps e s t) = regap s t (step0 beyond d e).
Proof.
  unfold step0. cbn [with_gaps en_nodes en_visited en_addr]. destruct (en_nodes e) as [|[[off i] k] rest]; [reflexivity|].
  destruct (_ <=? _); [reflexivity|]. destruct (existsb _ _); [reflexivity|].
  destruct (set_bit _ _ _ _) as [a| | |]; try reflexivity. cbn [bind].
  destruct (fetch_node d off) as [[n|]| | |]; try reflexivity. cbn [bind].
  match goal with |- context [push_node d ?e1 (snd (fst n)) 1 (S k)] =>
    change e1 with (with_gaps (with_search e a ((off, i, k) :: rest) (off :: en_visited e)) s t) end.
  rewrite push_gaps. match goal with |- context [regap s t ?p] => destruct p as [[e1 r1]| | |] end; try reflexivity. cbn [regap bind].
  destruct (negb (r1 =? 0)%Z); [reflexivity|]. rewrite push_gaps.
  destruct (push_node d e1 (fst (fst n)) 0 (S k)) as [[e2 r2]| | |]; try reflexivity. cbn [regap bind].
  destruct (negb (r2 =? 0)%Z); [reflexivity|]. destruct (is_leaf n); [|reflexivity].
  cbn [with_gaps en_addr]. destruct (fetch_network d (en_addr e2) (N.of_nat k) (snd n)) as [[x r3]| | |]; try reflexivity. cbn [bind].
  destruct (negb (r3 =? 0)%Z); [reflexivity|]. destruct x; reflexivity.
Qed.
Lemma steps_gaps s t n e l e' : steps beyond d n e l e' -> steps beyond d n (with_gaps e s t) l (with_gaps e' s t).
Proof.
  induction 1 as [|n e e1 l e' H _ IH|n e e1 x l e' H _ IH]; [constructor| |].
  - eapply steps_quiet; [rewrite step0_gaps, H; reflexivity|exact IH].
  - eapply steps_found; [rewrite step0_gaps, H; reflexivity|exact IH].
Qed.

Variable old : option network.
Variable e0 : enum.
Hypothesis Mode : en_mode e0 = Bogons.
(** the gaps start at [a6] and [a4], the list holds [Sl], the search will find [Rl] *)
Definition state (a6 a4 : addr) (e : enum) (Sl Rl : list network) : Prop := pend beyond d (with_gaps e0 a6 a4) e [] Sl Rl.

Lemma state_gaps a6 a4 b6 b4 e Sl Rl : state a6 a4 e Sl Rl -> state b6 b4 (with_gaps e b6 b4) Sl Rl.
Proof.
  intros ((a & n & v & s & t & ->) & Hs & Ht & m & e' & S0 & En). split; [|split; [exact Hs|split; [exact Ht|]]].
  - now exists a, n, v, s, t.
  - exists m, (with_gaps e' b6 b4). split; [now apply steps_gaps|exact En].
Qed.
Lemma state_read a6 a4 e Sl Rl : state a6 a4 e Sl Rl -> en_mode e = Bogons /\ en_gap6 e = a6 /\ en_gap4 e = a4 /\ repr (en_stack e) Sl /\ repr (en_subnets e) [].
Proof. intros ((a & n & v & s & t & ->) & Hs & Ht & _). split; [exact Mode|]. auto. Qed.
Lemma state_lists a6 a4 e Sl Rl s Sl' : state a6 a4 e Sl Rl -> repr s Sl' -> state a6 a4 (with_lists e s (en_subnets e)) Sl' Rl.
Proof. intros P Hs. eapply pend_lists; [exact P|exact Hs|apply P]. Qed.

(** ** taking networks off the list *)
Lemma pop_none a6 a4 e Rl : state a6 a4 e [] Rl -> exists e1, pop_stack e = Ok (e1, None) /\ state a6 a4 e1 [] Rl.
Proof.
  intros P. destruct (state_read _ _ _ _ _ P) as (_ & _ & _ & R & _). destruct (list_pop_first_spec _ _ R) as [[_ Pp]|(l' & n & Q & _)]; [|discriminate].
  eexists. unfold pop_stack. rewrite Pp. split; [reflexivity|]. eapply state_lists; eauto.
Qed.
Lemma pop_some a6 a4 e x Sl Rl : state a6 a4 e (x :: Sl) Rl -> exists e1, pop_stack e = Ok (e1, Some x) /\ state a6 a4 e1 Sl Rl.
Proof.
  intros P. destruct (state_read _ _ _ _ _ P) as (_ & _ & _ & R & _). destruct (list_pop_first_spec _ _ R) as [[Q _]|(l' & n & Q & L' & Pp & Rp)]; [discriminate|].
  injection Q as <- <-. eexists. unfold pop_stack. rewrite Pp. split; [reflexivity|]. eapply state_lists; eauto.
Qed.

Definition bgives (fuel n : nat) (e : enum) (L : list network) : Prop :=
  match L with
  | [] => exists e1, forall k, (n < k)%nat -> bogon_loop beyond d fuel e k = Ok (e1, None, 0%Z)
  | x :: L' => exists e1, (forall k, (n < k)%nat -> bogon_loop beyond d fuel e k = Ok (e1, Some x, 0%Z)) /\
      enumerates (next_network beyond d fuel old) e1 L'
  end.

Lemma next_bogons a6 a4 e Sl Rl fuel : state a6 a4 e Sl Rl -> next_network beyond d fuel old e = next_bogon beyond d fuel e.
Proof. intros P. unfold next_network. now rewrite (proj1 (state_read _ _ _ _ _ P)). Qed.

Lemma after_chunk a6 a4 Rl : forall Sl e, state a6 a4 e Sl Rl -> exists e3, state a6 a4 e3 [] Rl /\
  forall fuel n L, (n < fuel)%nat -> bgives fuel n e3 L -> enumerates (next_network beyond d fuel old) e (Sl ++ L).
Proof.
  induction Sl as [|x Sl IH]; intros e P.
  - destruct (pop_none _ _ _ _ P) as (e3 & E3 & P3). exists e3. split; [exact P3|]. intros fuel n L Lf G.
    assert (Nx : next_network beyond d fuel old e = bogon_loop beyond d fuel e3 fuel).
    { rewrite (next_bogons _ _ _ _ _ _ P). unfold next_bogon. rewrite E3. reflexivity. }
    destruct L as [|x L].
    + destruct G as (e1 & G). exists e, e1. split; [constructor|]. rewrite Nx. now apply G.
    + destruct G as (e1 & G & (e4 & e5 & Re & Nn)). exists e4, e5. split; [|exact Nn]. econstructor; [|exact Re]. rewrite Nx. now apply G.
  - destruct (pop_some _ _ _ _ _ _ P) as (e1 & E1 & P1). destruct (IH e1 P1) as (e3 & P3 & H). exists e3. split; [exact P3|].
    intros fuel n L Lf G. destruct (H fuel n L Lf G) as (e4 & e5 & Re & Nn). exists e4, e5. split; [|exact Nn]. econstructor; [|exact Re].
    rewrite (next_bogons _ _ _ _ _ _ P). unfold next_bogon. rewrite E1. reflexivity.
Qed.

Lemma bgives_step fuel n e e1 L : (forall k, bogon_loop beyond d fuel e (S k) = bogon_loop beyond d fuel e1 k) -> bgives fuel n e1 L -> bgives fuel (S n) e L.
Proof.
  intros H G. destruct L as [|x L].
  - destruct G as (e2 & G). exists e2. intros [|k] Lk; [lia|]. rewrite H. apply G. lia.
  - destruct G as (e2 & G & E). exists e2. split; auto. intros [|k] Lk; [lia|]. rewrite H. apply G. lia.
Qed.

(** ** the networks that count *)
Definition rel (x : network) : bool := keep e0 x && negb (length (get_country_code x) =? 0)%nat.

Lemma search_state a6 a4 e Rl : state a6 a4 e [] Rl -> exists f0 e1,
  match List.filter (keep e0) Rl with
  | [] => (forall fuel, (f0 <= fuel)%nat -> next_inner beyond d true e fuel = Ok (e1, None, 0%Z)) /\ state a6 a4 e1 [] []
  | x :: _ => exists skip rest, Rl = skip ++ x :: rest /\ (forall y, In y skip -> keep e0 y = false) /\ keep e0 x = true /\
      (forall fuel, (f0 <= fuel)%nat -> next_inner beyond d true e fuel = Ok (e1, Some x, 0%Z)) /\ state a6 a4 e1 [] rest
  end.
Proof.
  intros P. destruct (state_read _ _ _ _ _ P) as (_ & _ & _ & R & _). destruct (list_pop_first_spec _ _ R) as [[_ Pp]|(l' & n & Q & _)]; [|discriminate].
  assert (P' : state a6 a4 (with_lists e (en_stack e) (en_subnets e)) [] Rl) by (eapply state_lists; eauto).
  destruct (search_call beyond d _ true _ [] [] Rl P') as (f0 & e1 & X). exists f0, e1.
  assert (Ni : forall fuel, next_inner beyond d true e fuel = search beyond d true (with_lists e (en_stack e) (en_subnets e)) fuel).
  { intros fuel. unfold next_inner. replace (from_stack true e (nsize (en_stack e))) with (Ok (with_lists e (en_stack e) (en_subnets e), @None network)); [reflexivity|].
    destruct (nsize (en_stack e)); cbn [from_stack]; rewrite Pp; reflexivity. }
  change (kept (with_gaps e0 a6 a4) true) with (keep e0) in X.
  destruct (List.filter (keep e0) Rl) as [|x r] eqn:Fl.
  - destruct X as [X P1]. split; auto. intros fuel Lf. rewrite Ni. auto.
  - destruct X as (skip & rest & E & Sk & X & P1). exists skip, rest. split; auto. split; [exact Sk|]. split.
    { assert (I : In x (List.filter (keep e0) Rl)) by (rewrite Fl; now left). apply filter_In in I. apply I. }
    split; auto. intros fuel Lf. rewrite Ni. auto.
Qed.

Definition gap_of (a6 a4 : addr) (f : family) : addr := match f with AF_INET6 => a6 | AF_INET => a4 end.

(** ** the end *)
Lemma final_range g f Q : inv Q f g -> (g = zero f \/ zero f < g) /\ g <= final f /\ mappedb g = match f with AF_INET => true | AF_INET6 => false end.
Proof.
  intros I. pose proof (i_range _ _ _ I) as R. destruct f; cbn [zero final] in *.
  - split; [lia|]. split; [lia|]. apply mappedb_range. lia.
  - assert (R' : g = 0 \/ 2 ^ 49 <= g) by (destruct R as [R|[_ R]]; auto). split; [lia|]. split; [lia|].
    apply not_true_iff_false. intros M. apply mappedb_range in M. lia.
Qed.

Lemma zero_read a f Q : wf a -> inv Q f (val a) -> addr_all_zeroes a = (val a =? zero f).
Proof.
  intros W I. destruct (final_range _ _ _ I) as (R & Fi & M). pose proof (val_bound a W) as B.
  apply eq_true_iff_eq. rewrite addr_all_zeroes_iff by auto. change (low_part (val a) = 0) with (is_zero (val a)).
  rewrite is_zero_iff by auto. rewrite N.eqb_eq. pose proof (mappedb_range (val a)) as Mr. rewrite M in Mr. destruct f; cbn [zero final] in *.
  - split; [|lia]. intros [X|X]; [exact X|]. exfalso. lia.
  - split; [|lia]. intros [X|X]; [|exact X]. exfalso. assert (Y : false = true) by (apply Mr; rewrite X; lia). discriminate.
Qed.

Lemma end_mapped f : mappedb (final f) = match f with AF_INET => true | AF_INET6 => false end.
Proof. destruct f; reflexivity. Qed.

Lemma finish_one a6 a4 e Sl f : wf (gap_of a6 a4 f) -> inv [] f (val (gap_of a6 a4 f)) -> state a6 a4 e Sl [] -> sorted Sl ->
  let a6' := match f with AF_INET6 => if val a6 =? zero f then a6 else addr_reset AF_INET6 | AF_INET => a6 end in
  let a4' := match f with AF_INET => if val a4 =? zero f then a4 else addr_reset AF_INET | AF_INET6 => a4 end in
  exists e1 news, (forall fuel, (2 <= fuel)%nat -> finish_family e f fuel = Ok (e1, 0%Z)) /\ state a6' a4' e1 (ins_all Sl news) [] /\
    (forall x, In x news -> net_wf x /\ n_family x = f /\ plain x) /\ found [] f (val (gap_of a6 a4 f)) news.
Proof.
  intros Wg I P So a6' a4'. set (a := gap_of a6 a4 f) in *.
  destruct (state_read _ _ _ _ _ P) as (_ & E6 & E4 & R & _).
  assert (Ea : match f with AF_INET6 => en_gap6 e | AF_INET => en_gap4 e end = a) by (subst a; destruct f; cbn [gap_of]; auto).
  pose proof (zero_read a f [] Wg I) as Z. destruct (final_range _ _ _ I) as (Rg & Fi & M).
  destruct (N.eqb_spec (val a) (zero f)) as [E|E].
  - exists e, []. split; [|split; [|split]].
    + intros fuel _. unfold finish_family. rewrite Ea, Z. reflexivity.
    + replace a6' with a6; [replace a4' with a4; [exact P|]|]; subst a6' a4' a; destruct f; auto; cbn [gap_of] in E; rewrite E, N.eqb_refl; reflexivity.
    + intros x [].
    + rewrite E. apply found_nothing.
  - destruct (reset_last_wf f) as [Wl Vl].
    assert (Lt : val a < final f).
    { destruct (N.eq_dec (val a) (final f)) as [Q|]; [|lia]. exfalso. apply (i_lonely _ _ _ I) with (val a); auto; [now left|lia|].
      intros (n & [] & _). }
    destruct (gap_news e f a (addr_reset_last f) Sl Wg Wl) as (L' & news & Ad & Rl & Wn & Sm); auto.
    { now rewrite Vl. } { now rewrite Vl, end_mapped, M. } { rewrite M. now destruct f. }
    rewrite Vl in Sm.
    exists (match f with AF_INET6 => with_gaps (with_lists e L' (en_subnets e)) (addr_reset AF_INET6) (en_gap4 e)
                    | AF_INET => with_gaps (with_lists e L' (en_subnets e)) (en_gap6 e) (addr_reset AF_INET) end), news.
    split; [|split; [|split]].
    + intros fuel Lf. unfold finish_family. rewrite Ea, Z.
      assert (Cm : (addr_cmp a (addr_reset_last f) <=? 0)%Z = true).
      { rewrite addr_cmp_spec by auto. rewrite Vl. destruct (N.compare_spec (val a) (final f)); cbn; lia. }
      rewrite Cm, Ad by auto. cbn [bind]. destruct f; reflexivity.
    + assert (P1 : state a6 a4 (with_lists e L' (en_subnets e)) (ins_all Sl news) []) by (eapply state_lists; eauto).
      subst a6' a4' a. destruct f; cbn [gap_of] in E; (replace (_ =? _) with false by (symmetry; now apply N.eqb_neq)); rewrite ?E6, ?E4;
        apply (state_gaps a6 a4); exact P1.
    + exact Wn.
    + apply found_end; auto; [lia|now rewrite M, end_mapped|intros x Ix; now apply Wn|intros x Ix; now apply Wn].
Qed.

Lemma finish_zero e : state (addr_reset AF_INET6) (addr_reset AF_INET) e [] [] ->
  exists f0, forall fuel, (f0 <= fuel)%nat -> bgives fuel 0 e [].
Proof.
  intros P. destruct (search_state _ _ _ _ P) as (f0 & e1 & X). cbn [List.filter] in X. destruct X as [X P1].
  destruct (reset_wf AF_INET6) as [W6 V6]. destruct (reset_wf AF_INET) as [W4 V4].
  destruct (pop_none _ _ _ _ P1) as (e2 & E2 & _). exists f0. intros fuel Lf. exists e2. intros [|k] Lk; [lia|]. cbn [bogon_loop].
  rewrite X by auto. cbn [bind Z.eqb negb]. unfold finish.
  destruct (state_read _ _ _ _ _ P1) as (_ & E6 & E4 & _).
  assert (F6 : finish_family e1 AF_INET6 fuel = Ok (e1, 0%Z)).
  { unfold finish_family. rewrite E6. reflexivity. }
  assert (F4 : finish_family e1 AF_INET fuel = Ok (e1, 0%Z)).
  { unfold finish_family. rewrite E4. reflexivity. }
  rewrite F6. cbn [bind Z.eqb negb]. rewrite F4. cbn [bind Z.eqb negb]. rewrite E2. reflexivity.
Qed.

Lemma ins_all_keys ns : forall l x, Forall net_wf ns -> sorted l -> In x ns -> exists y, In y (ins_all l ns) /\ K y = K x.
Proof.
  induction ns as [|n ns IH]; intros l x Fw So I; [destruct I|]. inversion Fw; subst. rewrite ins_all_cons. destruct I as [->|I].
  - destruct (mem x l) eqn:M.
    + apply mem_iff in M as (y & Iy & E). exists y. split; auto. apply ins_all_old. now apply ins_in_old.
    + exists x. split; auto. apply ins_all_old. now apply ins_new.
  - apply IH; auto. now apply sorted_ins.
Qed.

Definition good (x : network) : Prop := net_wf x /\ plain x.

Lemma finish_spec a6 a4 e : wf a6 -> wf a4 -> inv [] AF_INET6 (val a6) -> inv [] AF_INET (val a4) -> state a6 a4 e [] [] ->
  exists L f0, Forall good L /\ found [] AF_INET6 (val a6) L /\ found [] AF_INET (val a4) L /\
  forall fuel, (f0 <= fuel)%nat -> match L with
    | [] => exists e1, finish e fuel = Ok (e1, None, 0%Z)
    | x :: L' => exists e1, finish e fuel = Ok (e1, Some x, 0%Z) /\ enumerates (next_network beyond d fuel old) e1 L'
    end.
Proof.
  intros W6 W4 I6 I4 P.
  destruct (finish_one a6 a4 e [] AF_INET6 W6 I6 P sorted_nil) as (e1 & n6 & F6 & P1 & Wn6 & Fo6). cbv zeta in P1. cbn [gap_of] in Fo6.
  assert (Fw6 : Forall net_wf n6) by (apply Forall_forall; intros x I; now apply Wn6).
  assert (So6 : sorted (ins_all [] n6)) by (apply sorted_ins_all; auto; apply sorted_nil).
  destruct (finish_one _ a4 e1 (ins_all [] n6) AF_INET W4 I4 P1 So6) as (e2 & n4 & F4 & P2 & Wn4 & Fo4). cbv zeta in P2. cbn [gap_of] in Fo4.
  assert (Fw4 : Forall net_wf n4) by (apply Forall_forall; intros x I; now apply Wn4).
  set (L := ins_all (ins_all [] n6) n4) in *.
  assert (L1 : forall x, In x L -> In x n6 \/ In x n4).
  { intros x I. apply ins_all_in in I as [I|I]; auto. apply ins_all_in in I as [I|[]]. auto. }
  assert (L6 : forall x, In x n6 -> exists y, In y L /\ K y = K x).
  { intros x I. destruct (ins_all_keys n6 [] x Fw6 sorted_nil I) as (y & Iy & E). exists y. split; auto. now apply ins_all_old. }
  assert (L4 : forall x, In x n4 -> exists y, In y L /\ K y = K x).
  { intros x I. apply (ins_all_keys n4 (ins_all [] n6) x Fw4 So6 I). }
  assert (Wl : forall x, In x (n6 ++ n4) -> net_wf x) by (intros x I; apply in_app_iff in I as [I|I]; [now apply Wn6|now apply Wn4]).
  assert (Ll : forall x, In x (n6 ++ n4) -> exists y, In y L /\ K y = K x) by (intros x I; apply in_app_iff in I as [I|I]; auto).
  assert (Li : forall x, In x L -> In x (n6 ++ n4)) by (intros x I; apply in_app_iff; auto).
  assert (Z : (if val a6 =? zero AF_INET6 then a6 else addr_reset AF_INET6) = addr_reset AF_INET6).
  { destruct (N.eqb_spec (val a6) (zero AF_INET6)) as [E|]; auto. destruct (reset_wf AF_INET6). apply val_inj; congruence. }
  assert (Z4 : (if val a4 =? zero AF_INET then a4 else addr_reset AF_INET) = addr_reset AF_INET).
  { destruct (N.eqb_spec (val a4) (zero AF_INET)) as [E|]; auto. destruct (reset_wf AF_INET). apply val_inj; congruence. }
  rewrite Z, Z4 in P2.
  destruct L as [|x Sl] eqn:EL.
  - destruct (pop_none _ _ _ _ P2) as (e3 & E3 & _). exists [], 2%nat. split; [constructor|]. split; [|split].
    + apply (found_same _ _ _ (n6 ++ n4)); auto.
      assert (n6 = []) by (destruct n6 as [|y n6]; auto; destruct (L6 y (or_introl eq_refl)) as (? & [] & _)).
      assert (n4 = []) by (destruct n4 as [|y n4]; auto; destruct (L4 y (or_introl eq_refl)) as (? & [] & _)). subst. exact Fo6.
    + apply (found_same _ _ _ (n6 ++ n4)); auto. apply found_app; auto. intros y I. destruct (Wn6 y I) as (_ & -> & _). discriminate.
    + intros fuel Lf. exists e3. unfold finish. rewrite F6 by auto. cbn [bind Z.eqb negb]. rewrite F4 by auto. cbn [bind Z.eqb negb]. now rewrite E3.
  - destruct (pop_some _ _ _ _ _ _ P2) as (e3 & E3 & P3). destruct (after_chunk _ _ _ _ _ P3) as (e4 & P4 & Hc).
    destruct (finish_zero e4 P4) as (f0 & G). exists (x :: Sl), (Nat.max 2 f0). split; [|split; [|split]].
    + apply Forall_forall. intros y I. destruct (L1 y I) as [J|J]; [destruct (Wn6 y J) as (? & ? & ?)|destruct (Wn4 y J) as (? & ? & ?)]; split; auto.
    + apply (found_same _ _ _ (n4 ++ n6)).
      * intros y I. apply in_app_iff. destruct (L1 y I); auto.
      * intros y I. apply Wl. apply in_app_iff. apply in_app_iff in I. tauto.
      * intros y I. apply Ll. apply in_app_iff. apply in_app_iff in I. tauto.
      * apply found_app; auto. intros y I. destruct (Wn4 y I) as (_ & -> & _). discriminate.
    + apply (found_same _ _ _ (n6 ++ n4)); auto. apply found_app; auto. intros y I. destruct (Wn6 y I) as (_ & -> & _). discriminate.
    + intros fuel Lf. exists e3. split.
      * unfold finish. rewrite F6 by lia. cbn [bind Z.eqb negb]. rewrite F4 by lia. cbn [bind Z.eqb negb]. now rewrite E3.
      * rewrite <- (app_nil_r Sl). apply (Hc fuel 0%nat []); [lia|]. apply G. lia.
Qed.

(** ** one network after the other *)
Lemma family_eq_dec (a b : family) : {a = b} + {a <> b}.
Proof. decide equality. Qed.

Definition ordered (Q : list network) : Prop := forall A n B m, Q = A ++ n :: B -> In m B -> K n < K m.
Lemma ordered_tail n Q : ordered (n :: Q) -> ordered Q.
Proof. intros H A x B m E I. apply (H (n :: A) x B m); auto. now rewrite E. Qed.
Lemma ordered_head n Q m : ordered (n :: Q) -> In m Q -> K n < K m.
Proof. intros H I. now apply (H [] n Q m). Qed.

Definition with_gap (a6 a4 : addr) (f : family) (b : addr) : addr * addr := match f with AF_INET6 => (b, a4) | AF_INET => (a6, b) end.
Lemma gap_with a6 a4 f b : gap_of (fst (with_gap a6 a4 f b)) (snd (with_gap a6 a4 f b)) f = b.
Proof. now destruct f. Qed.
Lemma gap_without a6 a4 f b g : g <> f -> gap_of (fst (with_gap a6 a4 f b)) (snd (with_gap a6 a4 f b)) g = gap_of a6 a4 g.
Proof. destruct f, g; intros H; try reflexivity; now elim H. Qed.

Definition ready (Rl : list network) (a6 a4 : addr) (e : enum) : Prop :=
  (forall f, wf (gap_of a6 a4 f) /\ inv (List.filter rel Rl) f (val (gap_of a6 a4 f))) /\
  (forall x, In x Rl -> net_wf x) /\ ordered (List.filter rel Rl) /\ state a6 a4 e [] Rl.
Definition answer (Rl : list network) (a6 a4 : addr) (L : list network) : Prop :=
  Forall good L /\ forall f, found (List.filter rel Rl) f (val (gap_of a6 a4 f)) L.

Lemma filter_rel_keep l : List.filter rel l = List.filter (fun x => negb (length (get_country_code x) =? 0)%nat) (List.filter (keep e0) l).
Proof.
  induction l as [|x l IH]; [reflexivity|]. cbn [List.filter]. unfold rel at 1. destruct (keep e0 x); cbn [andb List.filter]; [|exact IH].
  destruct (negb _); [now rewrite IH|exact IH].
Qed.
Lemma filter_rel_skip l : (forall y, In y l -> keep e0 y = false) -> List.filter rel l = [].
Proof.
  intros H. rewrite filter_rel_keep. replace (List.filter (keep e0) l) with (@nil network); [reflexivity|]. symmetry.
  induction l as [|x l IH]; [reflexivity|]. cbn [List.filter]. rewrite (H x (or_introl eq_refl)). apply IH. intros y I. apply H. now right.
Qed.

Lemma bogon_run m : forall Rl a6 a4 e, (length Rl <= m)%nat -> ready Rl a6 a4 e ->
  exists L f0, answer Rl a6 a4 L /\ forall fuel, (f0 <= fuel)%nat -> bgives fuel m e L.
Proof.
  induction m as [|m IH]; intros Rl a6 a4 e Len (Hg & Wr & Or & P).
  all: destruct (search_state _ _ _ _ P) as (f0 & e1 & X); destruct (List.filter (keep e0) Rl) as [|n r] eqn:Fk.
  2: { destruct X as (skip & rest & -> & _). rewrite app_length in Len. cbn [length] in Len. lia. }
  1,2: assert (Fr : List.filter rel Rl = []) by (rewrite filter_rel_keep, Fk; reflexivity);
    destruct X as [X P1]; destruct (Hg AF_INET6) as [W6 I6]; destruct (Hg AF_INET) as [W4 I4]; rewrite Fr in I6, I4;
    destruct (finish_spec a6 a4 e1 W6 W4 I6 I4 P1) as (L & f1 & Gl & F6 & F4 & Fi);
    exists L, (Nat.max f0 f1); (split; [split; [exact Gl|]; rewrite Fr; intros []; auto|]);
    intros fuel Lf; pose proof (Fi fuel ltac:(lia)) as Fi'; destruct L as [|x L];
    [destruct Fi' as (e2 & E2); exists e2; intros [|k] Lk; [lia|]; cbn [bogon_loop]; rewrite X by lia; exact E2
    |destruct Fi' as (e2 & E2 & En); exists e2; split; [|exact En]; intros [|k] Lk; [lia|]; cbn [bogon_loop]; rewrite X by lia; exact E2].
  destruct X as (skip & rest & E & Sk & Kn & X & P1).
  assert (Lr : (length rest <= m)%nat) by (rewrite E, app_length in Len; cbn [length] in Len; lia).
  assert (Fr : List.filter rel Rl = if negb (length (get_country_code n) =? 0)%nat then n :: List.filter rel rest else List.filter rel rest).
  { rewrite E, filter_app, (filter_rel_skip skip Sk). cbn [app List.filter]. unfold rel at 1. now rewrite Kn. }
  assert (Wn : net_wf n) by (apply Wr; rewrite E; apply in_app_iff; right; now left).
  assert (Wr' : forall x, In x rest -> net_wf x) by (intros x I; apply Wr; rewrite E; apply in_app_iff; right; now right).
  (* the search goes on without a result *)
  assert (Quiet : forall e2 b6 b4, (forall fuel, (f0 <= fuel)%nat -> forall k, bogon_loop beyond d fuel e (S k) = bogon_loop beyond d fuel e2 k) ->
    ready rest b6 b4 e2 -> (forall L, answer rest b6 b4 L -> answer Rl a6 a4 L) ->
    exists L f0, answer Rl a6 a4 L /\ forall fuel, (f0 <= fuel)%nat -> bgives fuel (S m) e L).
  { intros e2 b6 b4 Hs Re Ha. destruct (IH rest b6 b4 e2 Lr Re) as (L & f1 & An & G). exists L, (Nat.max f0 f1). split; [now apply Ha|].
    intros fuel Lf. eapply bgives_step; [|apply G; lia]. apply Hs. lia. }
  destruct (length (get_country_code n) =? 0)%nat eqn:Cc; cbn [negb] in Fr.
  { apply (Quiet e1 a6 a4).
    - intros fuel Lf k. cbn [bogon_loop]. rewrite X by auto. cbn [bind Z.eqb negb]. now rewrite Cc.
    - rewrite Fr in Hg, Or. split; auto.
    - intros L [Gl An]. split; auto. now rewrite Fr. }
  rewrite Fr in Hg, Or. set (Q := List.filter rel rest) in *. set (f := n_family n).
  assert (WQ : forall x, In x Q -> net_wf x /\ K n < K x).
  { intros x I. split; [apply Wr'; now apply filter_In in I|]. eapply ordered_head; eauto. }
  destruct (Hg f) as [Wa I]. set (a := gap_of a6 a4 f) in *.
  assert (Ga : match n_family n with AF_INET6 => en_gap6 e1 | AF_INET => en_gap4 e1 end = a).
  { destruct (state_read _ _ _ _ _ P1) as (_ & <- & <- & _). subst a f. now destruct (n_family n). }
  pose proof (w_first n Wn) as Wf. pose proof (w_last n Wn) as Wl. pose proof (lo_le_hi n Wn) as Lh.
  assert (F : n_family n = f) by reflexivity.
  destruct (i_side _ _ _ I n (or_introl eq_refl) F) as [Hb|Hb].
  { (* the network lies before the gap *)
    apply (Quiet e1 a6 a4).
    - intros fuel Lf k. cbn [bogon_loop]. rewrite X by auto. cbn [bind Z.eqb negb]. rewrite Cc, Ga.
      replace (0 <=? addr_cmp a (n_last n))%Z with true; [reflexivity|]. rewrite addr_cmp_spec by auto.
      change (val (n_last n)) with (hi n). destruct (N.compare_spec (val a) (hi n)); cbn [cmp_code]; lia.
    - split; [|split; [exact Wr'|split; [eapply ordered_tail; eauto|exact P1]]]. intros h. destruct (Hg h) as [Wh Ih]. split; auto.
      destruct (family_eq_dec (n_family n) h) as [<-|Nf]; [now apply (inv_skip n)|now apply (inv_other n)].
    - intros L [Gl An]. split; auto. rewrite Fr. intros h. destruct (family_eq_dec (n_family n) h) as [<-|Nf].
      + apply found_skip; auto.
      + apply found_other; auto. }
  (* the network lies behind the start of the gap *)
  pose proof (i_ok _ _ _ I n (or_introl eq_refl) F) as (Lo6 & Lz & Hf).
  pose proof (i_host _ _ _ I n (or_introl eq_refl) F) as Ho.
  pose proof (final_range _ _ _ I) as (Rz & _ & Ma).
  assert (Ms : (0 <=? addr_cmp a (n_last n))%Z = false).
  { rewrite addr_cmp_spec by auto. change (val (n_last n)) with (hi n).
    destruct (N.compare_spec (val a) (hi n)) as [Q1|Q1|Q1]; cbn [cmp_code]; [|reflexivity|lia]. exfalso. destruct (N.eq_dec (lo n) (hi n)) as [Eh|]; [|lia].
    destruct (Ho Eh Hb) as [Ho1 _]. lia. }
  assert (Bl : zero f <= lo n /\ hi n <= final f /\ lo n <> dec_bad /\ hi n < 2 ^ 128).
  { pose proof (step_final n Q f (val a) Wn F WQ I Hb). unfold dec_bad. pose proof (val_bound _ Wl) as Vb. change (val (n_last n)) with (hi n) in Vb.
    clear Quiet IH X Hg. destruct f; cbn [zero final] in *; [|specialize (Lo6 eq_refl)]; lia. }
  destruct (addr_increment_wf_val (n_last n) Wl) as (Wi & _ & Vi). change (val (n_last n)) with (hi n) in Vi.
  assert (Vi' : val (addr_increment (n_last n)) = hi n + 1).
  { apply Vi. rewrite is_last_iff by lia. clear Quiet IH X Hg Vi. destruct f; cbn [zero final] in *; [|specialize (Lo6 eq_refl)]; lia. }
  destruct (addr_decrement_wf_val (n_first n) Wf) as (Wd & _ & Vd); [apply Bl|]. change (val (n_first n)) with (lo n) in Vd.
  assert (Vd' : val (addr_decrement (n_first n)) = lo n - 1).
  { assert (V1 : val (addr_decrement (n_first n)) + 1 = lo n); [|lia]. apply Vd. rewrite is_zero_iff by lia.
    clear Quiet IH X Hg Vi Vd. destruct f; cbn [zero final] in *; [|specialize (Lo6 eq_refl)]; lia. }
  pose (b := with_gap a6 a4 f (addr_increment (n_last n))).
  assert (Rd : forall e2, state (fst b) (snd b) e2 [] rest -> ready rest (fst b) (snd b) e2).
  { intros e2 P2. split; [|split; [exact Wr'|split; [eapply ordered_tail; eauto|exact P2]]]. intros h.
    destruct (family_eq_dec h f) as [->|Nf]; unfold b.
    - rewrite gap_with. split; auto. rewrite Vi'. apply (inv_step n Q f (val a)); auto.
    - rewrite gap_without by auto. destruct (Hg h) as [Wh Ih]. split; auto. apply (inv_other n); auto. }
  assert (Sb : forall e2 Sl, state a6 a4 e2 Sl rest -> state (fst b) (snd b)
      match n_family n with AF_INET6 => with_gaps e2 (addr_increment (n_last n)) (en_gap4 e2) | AF_INET => with_gaps e2 (en_gap6 e2) (addr_increment (n_last n)) end Sl rest).
  { intros e2 Sl P2. destruct (state_read _ _ _ _ _ P2) as (_ & E6 & E4 & _). unfold b. fold f. destruct f; cbn [with_gap fst snd]; rewrite ?E6, ?E4; eapply state_gaps; exact P2. }
  destruct (N.eq_dec (val a) (lo n)) as [Eq|Ne].
  { (* no gap *)
    destruct (pop_none _ _ _ _ (Sb e1 [] P1)) as (e2 & E2 & P2). apply (Quiet e2 (fst b) (snd b)).
    - intros fuel Lf k. cbn [bogon_loop]. rewrite X by auto. cbn [bind Z.eqb negb]. rewrite Cc, Ga, Ms.
      replace (addr_cmp a (addr_decrement (n_first n)) <=? 0)%Z with false; [cbn [bind Z.eqb negb]; now rewrite E2|].
      rewrite addr_cmp_spec, Vd' by auto. destruct (N.compare_spec (val a) (lo n - 1)); cbn [cmp_code]; try lia.
    - now apply Rd.
    - intros L [Gl An]. split; auto. rewrite Fr. intros h. specialize (An h). destruct (family_eq_dec h f) as [->|Nf]; unfold b in An.
      + rewrite gap_with, Vi' in An. apply (found_adjacent n Q f (val a)); auto.
      + rewrite gap_without in An by auto. apply found_other; auto. }
  (* a gap *)
  assert (Wide : val a + 1 < lo n) by (apply (step_wide n Q f (val a)); auto; lia).
  destruct (state_read _ _ _ _ _ P1) as (_ & _ & _ & R1 & _).
  destruct (gap_news e1 f a (addr_decrement (n_first n)) [] Wa Wd) as (L' & news & Ad & Rn & Wnews & Sm); auto.
  { rewrite Vd'. lia. } { rewrite Vd'. apply (gap_mapped n Q f (val a)); auto. lia. } { rewrite Ma. now destruct f. } { apply sorted_nil. }
  rewrite Vd' in Sm.
  assert (Fn : Forall net_wf news) by (apply Forall_forall; intros x Ix; now apply Wnews).
  assert (P2 : state a6 a4 (with_lists e1 L' (en_subnets e1)) (ins_all [] news) rest) by (eapply state_lists; eauto).
  pose proof (ins_all_keys news [] ) as Kn2.
  destruct (ins_all [] news) as [|x Sl] eqn:En.
  { exfalso. assert (news = []) by (destruct news as [|y t]; auto; destruct (Kn2 y Fn sorted_nil (or_introl eq_refl)) as (? & [] & _)).
    subst news. destruct Sm as [(z & Sm & _)|(z & z' & Sm & _)]; discriminate. }
  destruct (pop_some _ _ _ _ _ _ (Sb _ _ P2)) as (e3 & E3 & P3).
  destruct (after_chunk _ _ _ _ _ P3) as (e4 & P4 & Hc).
  destruct (IH rest _ _ e4 Lr (Rd e4 P4)) as (L & f1 & [Gl An] & G).
  exists ((x :: Sl) ++ L), (S m + f0 + f1 + 2)%nat. split; [split|].
  - apply Forall_app. split; auto. apply Forall_forall. intros y Iy. rewrite <- En in Iy. apply ins_all_in in Iy as [Iy|[]].
    destruct (Wnews y Iy) as (? & _ & ?). split; auto.
  - rewrite Fr. intros h. specialize (An h). destruct (family_eq_dec h f) as [->|Nf]; unfold b in An.
    + rewrite gap_with, Vi' in An. apply (found_gap n Q f (val a) Wn F WQ I Hb news); auto.
      * intros y Iy. destruct (Wnews y Iy) as (? & ? & _). auto.
      * intros y Iy. rewrite <- En in Iy. apply ins_all_in in Iy as [Iy|[]]. exact Iy.
      * intros y Iy. apply Kn2; auto. apply sorted_nil.
    + rewrite gap_without in An by auto. apply found_other; [now intros Hq; apply Nf|]. apply found_app; auto.
      intros y Iy. rewrite <- En in Iy. apply ins_all_in in Iy as [Iy|[]]. destruct (Wnews y Iy) as (_ & -> & _). now intros Hq; apply Nf.
  - intros fuel Lf. exists e3. split; [|apply (Hc fuel m); [lia|]; apply G; lia].
    intros [|k] Lk; [lia|]. cbn [bogon_loop]. rewrite X by lia. cbn [bind Z.eqb negb]. rewrite Cc, Ga, Ms.
    replace (addr_cmp a (addr_decrement (n_first n)) <=? 0)%Z with true.
    + rewrite Ad by lia. cbn [bind Z.eqb negb]. rewrite E3. reflexivity.
    + rewrite addr_cmp_spec, Vd' by auto. destruct (N.compare_spec (val a) (lo n - 1)); cbn [cmp_code]; lia.
Qed.
End Bogon.
