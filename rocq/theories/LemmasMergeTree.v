(** Aggregation and pruning of the network tree. *)
From Coq Require Import NArith ZArith List Bool Arith Lia ZifyBool ZifyNat ZifyN Sorting.Sorted.
From Verif Require Import Base LemmasBase ModelAddress LemmasAddress ModelCountryCode ModelNetwork
  LemmasNetwork ModelNetworkList LemmasNetworkList ModelTree LemmasPath LemmasTree LemmasDedup.
Import ListNotations.
Open Scope N_scope.

(** no network inside another one *)
Definition flat (t : tree) : Prop := forall p r x y, nt t p = Some x -> nt t r = Some y -> pre p r -> p = r.

(** [r] is a network of [t] or made of such halves, all of one family and with the same attributes *)
Inductive built (t : tree) (F : family) (A : cc2 * N * N) : list bool -> Prop :=
| built_net r y : nt t r = Some y -> n_family y = F -> at3 y = A -> built t F A r
| built_halves r : built t F A (r ++ [false]) -> built t F A (r ++ [true]) -> built t F A r.

Lemma built_mono t t' F A : (forall r y, nt t' r = Some y -> built t (n_family y) (at3 y) r) ->
  forall r, built t' F A r -> built t F A r.
Proof. intros H r B. induction B as [r y N <- <-|r B1 IH1 B2 IH2]; [now apply H|now apply built_halves]. Qed.

Lemma built_length t F A r : tree_ok t -> built t F A r -> (length r <= 128)%nat.
Proof.
  intros T B. induction B as [r y N _ _|r B1 IH1 B2 IH2].
  - apply (wf_len [] t r (proj1 T)). unfold nt in N. intros Q. now rewrite Q in N.
  - rewrite app_length in IH1. lia.
Qed.

Lemma built_at t F A r w : tree_ok t -> built t F A r -> length w = 128%nat -> pre r w ->
  exists r' y, pre r r' /\ pre r' w /\ nt t r' = Some y /\ n_family y = F /\ at3 y = A.
Proof.
  intros T B L. induction B as [r y N Fy Ay|r B1 IH1 B2 IH2]; intros P.
  - exists r, y. split; [exists []; now rewrite app_nil_r|auto].
  - pose proof (built_length t F A _ T B1) as L1. rewrite app_length in L1. cbn [length] in L1.
    destruct P as [[|b s] ->]; [rewrite app_nil_r in L; lia|].
    assert (Pb : pre (r ++ [b]) (r ++ b :: s)) by (exists s; now rewrite <- app_assoc).
    assert (X : exists r' y, pre (r ++ [b]) r' /\ pre r' (r ++ b :: s) /\ nt t r' = Some y /\ n_family y = F /\ at3 y = A) by (destruct b; auto).
    destruct X as (r' & y & P1 & X). exists r', y. split; auto. eapply pre_trans; [apply pre_app|exact P1].
Qed.

(** what the clean-up keeps *)
Record keeps (t t' : tree) : Prop := {
  kp_sem : forall bits acc, length bits = 128%nat -> sem t' bits acc = sem t bits acc;
  kp_complete : forall F, complete F None t -> complete F None t';
  kp_v6 : forall w r' y', length w = 128%nat -> pre r' w -> nt t' r' = Some y' -> n_family y' = AF_INET6 ->
      exists r y, pre r w /\ nt t r = Some y /\ n_family y = AF_INET6;
  kp_flat : flat t -> flat t';
  kp_single : forall r y, length r = 128%nat -> nt t' r = Some y -> nt t r = Some y;
  kp_in : forall r y, nt t r = Some y -> exists r' y', pre r' r /\ nt t' r' = Some y' /\ at3 y' = at3 y;
  kp_out : forall w r' y', length w = 128%nat -> pre r' w -> nt t' r' = Some y' -> exists r y, pre r w /\ nt t r = Some y /\ at3 y = at3 y';
  kp_built : forall r y, nt t' r = Some y -> built t (n_family y) (at3 y) r
}.

Lemma keeps_refl t : keeps t t.
Proof.
  constructor; auto.
  - intros w r y _ P N F. eauto.
  - intros r y N. exists r, y. split; [exists []; now rewrite app_nil_r|auto].
  - intros w r y _ P N. eauto.
  - intros r y N. now apply (built_net t _ _ r y).
Qed.
Lemma keeps_trans t t' t'' : keeps t t' -> keeps t' t'' -> keeps t t''.
Proof.
  intros [A1 A2 A3 A4 A5 A6 A7 A8] [B1 B2 B3 B4 B5 B6 B7 B8]. constructor; auto.
  - intros bits acc H. now rewrite B1, A1.
  - intros w r y L P N F. destruct (B3 w r y L P N F) as (r1 & y1 & P1 & N1 & F1). eauto.
  - intros r y N. destruct (A6 r y N) as (r1 & y1 & P1 & N1 & E1). destruct (B6 r1 y1 N1) as (r2 & y2 & P2 & N2 & E2).
    exists r2, y2. split; [eapply pre_trans; eauto|]. split; auto. congruence.
  - intros w r y L P N. destruct (B7 w r y L P N) as (r1 & y1 & P1 & N1 & E1). destruct (A7 w r1 y1 L P1 N1) as (r2 & y2 & P2 & N2 & E2).
    exists r2, y2. split; auto. split; auto. congruence.
  - intros r y N. apply (built_mono t t'); auto.
Qed.

Lemma same_at3 c c' x x' : option_map at3 c = option_map at3 c' -> at3 x = at3 x' -> same c x = same c' x'.
Proof.
  intros Hc Hx. destruct c as [n|], c' as [n'|]; try discriminate; auto.
  cbn in *. injection Hc as H1 H2 H3. unfold at3 in Hx. injection Hx as X1 X2 X3.
  apply eq_true_iff_eq. rewrite !properties_cmp_0. unfold same_attrs. rewrite H1, H2, H3, X1, X2, X3. reflexivity.
Qed.

Lemma complete_at3 F t : forall c c', option_map at3 c = option_map at3 c' -> complete F c t -> complete F c' t.
Proof.
  induction t as [|d n z IHz o IHo]; intros c c' E H; auto. destruct n as [x|]; cbn [complete] in *.
  - destruct (family_eqb F (n_family x)); auto. destruct H as (H1 & H2). split; auto.
    rewrite <- H1. symmetry. now apply same_at3.
  - destruct H. eauto.
Qed.

Lemma complete_repl F p : forall t s c, (forall c, complete F c (sub t p) -> complete F c s) ->
  complete F c t -> complete F c (repl t p s).
Proof.
  induction p as [|b p IH]; intros t s c H C; cbn [repl sub] in *; auto.
  destruct t as [|d n z o]; auto. destruct n as [x|]; destruct b; cbn [complete] in *;
    try (destruct (family_eqb F (n_family x)); auto; destruct C as (C1 & C2 & C3); auto);
    try (destruct C; auto).
Qed.

Lemma sem_repl' p : forall t s bits acc, (length p < length bits)%nat ->
  (forall bits acc, bits <> [] -> sem s bits acc = sem (sub t p) bits acc) ->
  sem (repl t p s) bits acc = sem t bits acc.
Proof.
  induction p as [|b p IH]; intros t s bits acc L H; cbn [repl sub] in *.
  - apply H. intros ->. cbn in L. lia.
  - destruct t as [|d n z o]; auto.
    destruct bits as [|c bits]; [now destruct b|]. cbn [length] in L.
    destruct b, c; cbn [sem]; auto; apply IH; auto; lia.
Qed.

(** the tree after merging the two networks below q *)
Definition join (t : tree) (q : list bool) (m : network) : tree :=
  repl t q (set_net (Some m) (Node false None (drop_net (sub t (q ++ [false]))) (drop_net (sub t (q ++ [true]))))).

Lemma drop_net_sem d x z o bits a acc : at3 x = a ->
  sem (drop_net (Node d (Some x) z o)) bits (Some a) = sem (Node d (Some x) z o) bits acc.
Proof. intros <-. destruct z, o, bits as [|[] bits]; reflexivity. Qed.

Lemma drop_net_complete F c d x z o : family_eqb F (n_family x) = false -> option_map at3 c = Some (at3 x) ->
  complete F (Some x) z /\ complete F (Some x) o -> complete F c (drop_net (Node d (Some x) z o)).
Proof.
  intros Fx E [H1 H2].
  assert (complete F c (Node d None z o)).
  { cbn [complete]. split; eapply complete_at3; try eassumption; now rewrite E. }
  destruct z, o; auto.
Qed.

Lemma wf_drop q t : wf_at q t -> live t -> wf_at q (drop_net t).
Proof.
  intros H L. destruct t as [|[] n z o]; [destruct L|destruct L|]. rewrite drop_net_leaf.
  destruct H as (H1 & H2 & H3 & H4 & H5). cbn [wf_at]. split; auto. split; [|split; [discriminate|auto]].
  intros E. destruct z, o; try discriminate. auto.
Qed.

Lemma drop_not_nil t : t <> Nil -> drop_net t <> Nil.
Proof. destruct t as [|d n [] []]; cbn; congruence. Qed.

Lemma nt_drop t r : r <> [] -> nt (drop_net t) r = nt t r.
Proof. destruct t as [|d n [|] [|]], r as [|b r]; auto; congruence. Qed.
Lemma nt_drop_nil t : nt (drop_net t) [] = None.
Proof. destruct t as [|d n [] []]; reflexivity. Qed.

Section Join.
Variables (t : tree) (q : list bool) (n x m : network).
Hypothesis W : tree_ok t.
Hypothesis Nn : nt t (q ++ [false]) = Some n.
Hypothesis Nx : nt t (q ++ [true]) = Some x.
Hypothesis Nm : nt t q = None.
Hypothesis Wm : net_wf m.
Hypothesis Pm : path m = q.
Hypothesis Hf : n_family n = n_family x.
Hypothesis Hfm : n_family m = n_family n.
Hypothesis Ha : at3 n = at3 x.
Hypothesis Ham : at3 m = at3 n.

Lemma join_shape : exists d0 z0 o0 d1 z1 o1,
  sub t q = Node false None (Node d0 (Some n) z0 o0) (Node d1 (Some x) z1 o1).
Proof.
  clear Pm Hf Hfm Ha Ham. destruct W as [Wt _]. unfold nt in *. rewrite sub_app in Nn, Nx.
  destruct (sub t q) as [|d nn z o] eqn:E; [now rewrite sub_nil in Nn|]. cbn [sub] in *.
  destruct z as [|d0 n0 z0 o0]; [discriminate|]. destruct o as [|d1 n1 z1 o1]; [discriminate|].
  cbn [net_of] in *. subst. pose proof (wf_sub q [] t Wt) as X. rewrite E in X. destruct X as (_ & X & _).
  destruct d; [destruct (X eq_refl) as (_ & ? & _); discriminate|]. eauto 8.
Qed.

Lemma join_q : sub t q <> Nil.
Proof. destruct join_shape as (d0 & z0 & o0 & d1 & z1 & o1 & ->). discriminate. Qed.

Lemma join_model : path n = q ++ [false] -> path x = q ++ [true] ->
  tree_add t m = (repl t q (set_net (Some m) (sub t q)), 0%Z) /\
  tree_delete (tree_delete (repl t q (set_net (Some m) (sub t q))) x) n = join t q m.
Proof.
  intros Pn Px. destruct W as [Wt _].
  destruct join_shape as (d0 & z0 & o0 & d1 & z1 & o1 & E).
  pose proof (wf_live [] t _ _ Wt Nn) as Ln. pose proof (wf_live [] t _ _ Wt Nx) as Lx.
  rewrite sub_app, E in Ln, Lx. cbn [sub live] in Ln, Lx. destruct d0; [destruct Ln|]. destruct d1; [destruct Lx|].
  assert (Lq : live (sub t q)) by (rewrite E; exact I).
  split.
  - unfold tree_add. rewrite Pm. rewrite at_path_repl with (q := []) by auto. rewrite repl_same.
    fold (nt t q). rewrite Nm. rewrite at_path_repl with (q := []) by auto. reflexivity.
  - assert (Wm' : wf_at [] (repl t q (set_net (Some m) (sub t q)))).
    { apply wf_repl; auto; [apply join_q|]. pose proof (wf_sub q [] t Wt) as X. rewrite E in X |- *.
      cbn [set_net]. destruct X as (X1 & X2 & X3 & X4 & X5). split; auto. split; [discriminate|].
      split; [intros y Y; injection Y as <-; auto|split; auto]. }
    unfold tree_delete. rewrite Px.
    rewrite (at_path_repl _ (q ++ [true]) []); auto.
    2:{ rewrite sub_repl_under by apply join_q. rewrite E. exact I. }
    rewrite sub_repl_under by apply join_q. rewrite repl_repl by apply join_q.
    rewrite E. cbn [set_net sub repl].
    set (s := Node false (Some m) _ _).
    assert (Ws : wf_at [] (repl t q s)).
    { apply wf_repl; auto; [apply join_q|]. pose proof (wf_sub q [] t Wt) as X. rewrite E in X.
      destruct X as (X1 & X2 & X3 & X4 & X5). unfold s. split; auto. split; [discriminate|].
      split; [intros y Y; injection Y as <-; auto|split; auto]. apply wf_drop; auto. }
    rewrite Pn. rewrite (at_path_repl _ (q ++ [false]) []); auto.
    2:{ rewrite sub_repl_under by apply join_q. exact I. }
    rewrite sub_repl_under by apply join_q. rewrite repl_repl by apply join_q.
    unfold join. rewrite !sub_app, E. reflexivity.
Qed.

Lemma join_ok : tree_ok (join t q m).
Proof.
  destruct W as [Wt Lv]. destruct join_shape as (d0 & z0 & o0 & d1 & z1 & o1 & E). split.
  - unfold join. apply wf_repl; auto; [apply join_q|].
    pose proof (wf_sub q [] t Wt) as X. cbn [app] in X |- *.
    pose proof (wf_live [] t _ _ Wt Nn) as Ln. pose proof (wf_live [] t _ _ Wt Nx) as Lx.
    rewrite !sub_app, E in *. destruct X as (X1 & X2 & X3 & X4 & X5). cbn [set_net sub] in *.
    split; auto. split; [discriminate|]. split; [intros y Y; injection Y as <-; auto|].
    split; now apply wf_drop.
  - unfold join. apply live_repl; auto. intros _. exact I.
Qed.

Lemma join_ext : ext t (join t q m).
Proof.
  unfold join. apply ext_repl. rewrite !sub_app.
  destruct join_shape as (d0 & z0 & o0 & d1 & z1 & o1 & E). rewrite E. cbn [sub set_net].
  intros r H. destruct r as [|b r]; [discriminate|]. cbn [sub] in *.
  assert (D : forall d y z o, sub (Node d (Some y) z o) r <> Nil -> sub (drop_net (Node d (Some y) z o)) r <> Nil).
  { intros d y z o. destruct z, o, r as [|c r]; cbn; try congruence; auto. }
  destruct b; now apply D.
Qed.

Lemma join_nt_q : nt (join t q m) q = Some m.
Proof. unfold nt, join. rewrite sub_repl by apply join_q. reflexivity. Qed.

Lemma join_nt r : r <> q -> r <> q ++ [false] -> r <> q ++ [true] -> nt (join t q m) r = nt t r.
Proof.
  intros D1 D2 D3. unfold join.
  assert (P : pre q r \/ ~ pre q r).
  { rewrite pre_firstn. destruct (list_eq_dec Bool.bool_dec (firstn (length q) r) q); auto. }
  destruct P as [[y ->]|P]; [|now apply nt_repl_out].
  rewrite nt_repl_under by apply join_q.
  destruct y as [|b y]; [now rewrite app_nil_r in D1|]. cbn [set_net]. rewrite nt_cons.
  assert (D4 : y <> []) by (intros ->; destruct b; auto).
  transitivity (nt (sub t (q ++ [b])) y).
  - destruct b; now apply nt_drop.
  - unfold nt. rewrite <- sub_app, <- app_assoc. reflexivity.
Qed.

Lemma join_nt_back r y : nt (join t q m) r = Some y -> (r = q /\ y = m) \/ nt t r = Some y.
Proof.
  intros N. destruct (list_eq_dec Bool.bool_dec r q) as [->|D1].
  - rewrite join_nt_q in N. injection N as <-. auto.
  - right. destruct (list_eq_dec Bool.bool_dec r (q ++ [false])) as [->|D2];
      [|destruct (list_eq_dec Bool.bool_dec r (q ++ [true])) as [->|D3]; [|now rewrite join_nt in N]];
      exfalso; unfold join in N; rewrite nt_repl_under in N by apply join_q; cbn [set_net] in N;
      rewrite nt_cons, nt_drop_nil in N; discriminate.
Qed.

Lemma join_keeps : keeps t (join t q m).
Proof.
  destruct join_shape as (d0 & z0 & o0 & d1 & z1 & o1 & E). constructor.
  - intros bits acc L. unfold join. rewrite !sub_app, E. cbn [sub set_net].
    assert (Lq : (length q < length bits)%nat).
    { rewrite L. destruct W as [Wt _]. pose proof (wf_len [] t (q ++ [true]) Wt) as X. rewrite app_length in X.
      rewrite sub_app, E in X. cbn [sub app length] in X. specialize (X ltac:(discriminate)). rewrite app_length in X.
      cbn [length] in X. lia. }
    apply sem_repl'; auto. rewrite E. intros bs ac NE. destruct bs as [|b bs]; [congruence|]. cbn [sem at_opt].
    destruct b; apply drop_net_sem; congruence.
  - intros F C. unfold join. apply complete_repl; auto. rewrite !sub_app, E. intros c.
    cbn [sub set_net complete]. rewrite Hfm, Hf.
    destruct (family_eqb F (n_family x)) eqn:Fx; auto.
    intros ((S1 & C1) & (S2 & C2)). split; [rewrite <- S1; now apply same_at3|].
    split; apply drop_net_complete; auto; try congruence; cbn; congruence.
  - intros w r' y' L P N F. apply join_nt_back in N as [[-> ->]|N]; [|eauto].
    assert (Lq : (length q < 128)%nat).
    { destruct W as [Wt _]. pose proof (wf_len [] t (q ++ [true]) Wt) as X.
      rewrite sub_app, E in X. cbn [sub app length] in X. specialize (X ltac:(discriminate)). rewrite app_length in X.
      cbn [length] in X. lia. }
    destruct P as [[|b y] ->]; [rewrite app_nil_r in L; lia|].
    exists (q ++ [b]). exists (if b then x else n).
    split; [exists y; now rewrite <- app_assoc|]. split; [destruct b; auto|]. destruct b; congruence.
  - intros Fl p r y z Ny Nz P. pose proof Nz as Nz'.
    apply join_nt_back in Ny as [[-> ->]|Ny]; apply join_nt_back in Nz as [[-> ->]|Nz]; auto.
    + destruct P as [[|b s] ->]; [now rewrite app_nil_r|]. exfalso.
      assert (Q : q ++ [b] = q ++ b :: s).
      { apply (Fl _ _ (if b then x else n) z); [destruct b; auto|auto|]. exists s. now rewrite <- app_assoc. }
      apply app_inv_head in Q. injection Q as <-.
      unfold join in Nz'. rewrite nt_repl_under in Nz' by apply join_q. cbn [set_net] in Nz'.
      rewrite nt_cons in Nz'. destruct b; rewrite nt_drop_nil in Nz'; discriminate.
    + assert (p = q ++ [false]).
      { apply (Fl _ _ y n); auto. eapply pre_trans; [exact P|apply pre_app]. }
      subst p. apply pre_length in P. rewrite app_length in P. cbn [length] in P. lia.
    + eapply Fl; eauto.
  - intros r y L N. apply join_nt_back in N as [[-> ->]|N]; [|exact N]. exfalso.
    destruct W as [Wt _]. pose proof (wf_len [] t (q ++ [true]) Wt) as X.
    rewrite sub_app, E in X. cbn [sub app length] in X. specialize (X ltac:(discriminate)). rewrite app_length in X. cbn [length] in X. lia.
  - intros r y N. destruct (list_eq_dec bool_dec r q) as [->|D0].
    { congruence. }
    destruct (list_eq_dec bool_dec r (q ++ [false])) as [->|D1].
    { exists q, m. split; [apply pre_app|]. split; [exact join_nt_q|]. congruence. }
    destruct (list_eq_dec bool_dec r (q ++ [true])) as [->|D2].
    { exists q, m. split; [apply pre_app|]. split; [exact join_nt_q|]. congruence. }
    exists r, y. split; [exists []; now rewrite app_nil_r|]. split; auto. now rewrite join_nt.
  - intros w r' y' L P N. apply join_nt_back in N as [[-> ->]|N]; [|eauto].
    assert (Lq : (length q < 128)%nat).
    { destruct W as [Wt _]. pose proof (wf_len [] t (q ++ [true]) Wt) as X.
      rewrite sub_app, E in X. cbn [sub app length] in X. specialize (X ltac:(discriminate)). rewrite app_length in X.
      cbn [length] in X. lia. }
    destruct P as [[|b y] ->]; [rewrite app_nil_r in L; lia|].
    exists (q ++ [b]). exists (if b then x else n).
    split; [exists y; now rewrite <- app_assoc|]. split; [destruct b; auto|]. destruct b; congruence.
  - intros r y N. apply join_nt_back in N as [[-> ->]|N]; [|now apply (built_net t _ _ r y)].
    apply built_halves; [apply (built_net t _ _ _ n)|apply (built_net t _ _ _ x)]; congruence.
Qed.
End Join.

(** list entries whose last bit is 0 are networks of the tree *)
Record minv (t : tree) (L : nlist) (l : list network) : Prop := {
  mi_tree : tree_ok t;
  mi_repr : repr L l;
  mi_sorted : sorted l;
  mi_left : forall e q, In e l -> path e = q ++ [false] -> nt t (path e) = Some e
}.

Section MergeTree.
Variable ctz0 : nat.
Variable held : network -> bool.

Definition no_merge (x n : network) : Prop := network_merge ctz0 n x = Ok None.

Lemma no_merge_self x : net_wf x -> no_merge x x.
Proof.
  intros W. destruct (network_merge_sound ctz0 x x W W) as [E|[H _]]; auto.
  pose proof (h_next x x H). pose proof (blk_pos (n_prefix x)). lia.
Qed.

Lemma ins_length_le x l : (length l <= length (ins x l))%nat.
Proof.
  induction l as [|a l IH]; cbn [ins length]; [lia|]. destruct (K x <? K a); cbn [length]; [lia|].
  destruct (K x =? K a); cbn [length]; lia.
Qed.

Definition step_result (x : network) (t : tree) (l : list network) (t' : tree) (L' : nlist) : Prop :=
  exists l', minv t' L' l' /\ keeps t t' /\ ext t t' /\
    (t' = t /\ (forall e, In e l' -> e = x \/ In e l) \/ exists n, In n l /\ ~ no_merge x n).

Lemma merge_loop_spec rec x :
  (forall m t L l, S (n_prefix m) = n_prefix x -> minv t L l -> nt t (path m) = Some m ->
     exists t' L' l', rec m t L = Ok (t', L') /\ minv t' L' l' /\ keeps t t' /\ ext t t') ->
  forall k t L l, minv t L l -> nt t (path x) = Some x -> (k <= length l)%nat ->
  exists t' L' e, merge_loop ctz0 rec x t L k = Ok (t', L', e) /\ step_result x t l t' L'.
Proof.
  intros Rec. induction k as [|i IH]; intros t L l [T R So Le] Nx Hk; cbn [merge_loop].
  - exists t, L, false. split; auto. exists l. split; [constructor; auto|]. split; [apply keeps_refl|].
    split; [apply ext_refl|]. left. auto.
  - rewrite (list_get_spec L l i R). cbn [bind].
    destruct (nth_error l i) as [n|] eqn:En; [|apply nth_error_None in En; lia].
    assert (In_n : In n l) by now apply nth_error_In in En.
    assert (Wn : net_wf n) by now apply (sorted_wf l).
    destruct (wf_nt [] t _ x (proj1 T) Nx) as [Wx _].
    destruct (network_merge_sound ctz0 n x Wn Wx) as [E|[H (m & E & M)]]; rewrite E; cbn [bind].
    + (* not mergeable: x goes into the list *)
      destruct (list_push_spec L l x R So Wx) as (L' & E' & R'). rewrite E'. cbn [bind].
      destruct (IH t L' (ins x l)) as (t2 & L2 & e2 & E2 & l2 & I2 & K2 & X2 & O2); auto.
      { constructor; auto; [now apply sorted_ins|]. intros e q I P. apply ins_in in I as [->|I]; eauto. }
      { pose proof (ins_length_le x l). lia. }
      exists t2, L2, e2. split; auto. exists l2. split; auto. split; auto. split; auto.
      destruct O2 as [[-> O2]|(n' & O2 & O3)].
      * left. split; auto. intros y I. apply O2 in I as [I|I]; auto. apply ins_in in I as [I|I]; auto.
      * right. apply ins_in in O2 as [->|O2]; [exfalso; now apply O3, no_merge_self|eauto].
    + destruct (halves_path n x m Wn Wx H M) as [Pn Px].
      destruct M as (Wm & Pm & Lm & Fm & Am).
      assert (NM : ~ no_merge x n) by (unfold no_merge; rewrite E; discriminate).
      assert (Nn : nt t (path n) = Some n) by eauto.
      destruct (nt t (path m)) as [y|] eqn:Ny.
      * (* the slot is taken *)
        assert (Lq : live (sub t (path m))) by now apply (wf_live [] t _ y (proj1 T)).
        assert (A : tree_add t m = (t, (-EBUSY)%Z)).
        { unfold tree_add. rewrite at_path_repl with (q := []) by (auto; apply T). rewrite repl_same.
          fold (nt t (path m)). now rewrite Ny. }
        rewrite A. rewrite Z.eqb_refl. exists t, L, true. split; auto. exists l.
        split; [constructor; auto|]. split; [apply keeps_refl|]. split; [apply ext_refl|]. left. auto.
      * rewrite Pn in Nn. rewrite Px in Nx.
        assert (A3 : at3 n = at3 x) by apply at3_iff, H.
        assert (A4 : at3 m = at3 n) by now apply at3_iff.
        destruct (join_model t (path m) n x m T Nn Nx Ny Wm eq_refl Pn Px) as [J1 J2].
        rewrite J1. replace (0 =? - EBUSY)%Z with false by reflexivity. rewrite J2.
        destruct (list_push_spec L l m R So Wm) as (L1 & E1 & R1). rewrite E1. cbn [bind].
        assert (So1 : sorted (ins m l)) by now apply sorted_ins.
        destruct (list_remove_spec L1 (ins m l) n R1 So1 Wn) as (L2 & E2 & R2). rewrite E2. cbn [bind].
        assert (I2 : minv (join t (path m) m) L2 (del n (ins m l))).
        { constructor; auto.
          - now apply (join_ok t (path m) n x m).
          - now apply sorted_del.
          - intros e q I P. apply del_in in I as [I Kn]. apply ins_in in I as [->|I].
            + now apply (join_nt_q t (path m) n x m).
            + pose proof (Le e q I P) as Ne.
              rewrite (join_nt t (path m) n x m); auto.
              * intros Q. rewrite Q in Ne. congruence.
              * rewrite <- Pn. intros Q. apply Kn. apply path_eq; auto. now apply (sorted_wf l).
              * rewrite P. intros Q. apply app_inj_tail in Q as [_ Q]. discriminate. }
        destruct (Rec m _ L2 _ ltac:(rewrite <- (h_prefix n x H); exact Pm) I2) as (t3 & L3 & l3 & E3 & I3 & K3 & X3).
        { now apply (join_nt_q t (path m) n x m). }
        rewrite E3. cbn [bind]. exists t3, L3, false. split; auto. exists l3. split; auto.
        split. { eapply keeps_trans; [|exact K3]. apply (join_keeps t (path m) n x m); auto. apply H. }
        split. { eapply ext_trans; [|exact X3]. now apply (join_ext t (path m) n x m). }
        right. eauto.
Qed.

Lemma merge_step_spec fuel : forall own x t L l, (n_prefix x < fuel)%nat ->
  minv t L l -> nt t (path x) = Some x ->
  own = true \/ held x = true \/ (forall n, In n l -> no_merge x n) ->
  exists t' L', merge_step ctz0 held own x t L fuel = Ok (t', L') /\ step_result x t l t' L'.
Proof.
  induction fuel as [|fuel IH]; intros own x t L l Hf Inv Nx Safe; [lia|]. cbn [merge_step].
  pose proof Inv as [T R So Le]. destruct (wf_nt [] t _ x (proj1 T) Nx) as [Wx _].
  unfold list_empty. replace (nsize L) with (length l) by (symmetry; apply R).
  destruct (Nat.eqb_spec (length l) 0) as [Z|Z].
  - destruct l; [|discriminate].
    destruct (list_push_spec L [] x R So Wx) as (L1 & E1 & R1). rewrite E1. cbn [bind].
    exists t, L1. split; auto. exists [x]. split.
    + constructor; auto; [now apply (sorted_ins x [])|]. intros e q [<-|[]] P. exact Nx.
    + split; [apply keeps_refl|]. split; [apply ext_refl|]. left. split; auto. intros e [<-|[]]. auto.
  - destruct (merge_loop_spec (fun m t l => merge_step ctz0 held true m t l fuel) x) with (k := length l) (t := t) (L := L) (l := l)
      as (t1 & L1 & e & E1 & l1 & I1 & K1 & X1 & O1); auto.
    { intros m t' L' l' Pm I' Nm.
      destruct (IH true m t' L' l' ltac:(lia) I' Nm (or_introl eq_refl)) as (t2 & L2 & E2 & l2 & I2 & K2 & X2 & _).
      eauto 8. }
    rewrite E1. cbn [bind]. destruct e; [exists t1, L1; split; auto; now exists l1|].
    assert (A : alive held own x t1 L1 = Ok true).
    { unfold alive. destruct own; auto. destruct (held x) eqn:Hx; auto.
      destruct Safe as [?|[?|Safe]]; try congruence.
      destruct O1 as [[-> _]|(n & O1 & O2)]; [|exfalso; now apply O2, Safe].
      fold (nt t (path x)). now rewrite Nx. }
    rewrite A. cbn [bind].
    destruct I1 as [T1 R1 So1 Le1].
    destruct (list_rm_spec L1 l1 (network_prefix x) R1) as (L2 & E2 & R2). rewrite E2. cbn [bind].
    exists t1, L2. split; auto. exists (drop_long (network_prefix x) l1). split.
    + constructor; auto; [now apply sorted_filter|].
      intros e q I P. apply filter_In in I as [I _]. eauto.
    + split; auto. split; auto. destruct O1 as [[-> O1]|O1]; auto. left. split; auto.
      intros e I. apply filter_In in I as [I _]. auto.
Qed.
End MergeTree.

(** walking over a tree that the callback changes *)
Section WalkInv.
Context {S : Type}.
Variables (flt : network -> bool) (cb : network -> tree -> S -> outcome (tree * S)).
Variable J : tree -> S -> Prop.
Hypothesis J_wf : forall t s, J t s -> wf_at [] t.
Hypothesis J_step : forall t s p x, J t s -> nt t p = Some x -> flt x = false ->
  exists t' s', cb x t s = Ok (t', s') /\ J t' s' /\ ext t t'.

Lemma walk_inv fuel : forall p t s, (129 <= fuel + length p)%nat -> J t s -> sub t p <> Nil ->
  exists t' s', walk flt cb p t s fuel = Ok (t', s') /\ J t' s' /\ ext t t'.
Proof.
  induction fuel as [|fuel IH]; intros p t s Hf Hj E.
  { pose proof (wf_len [] t p (J_wf t s Hj) E) as L. cbn [app] in L. lia. }
  cbn [walk].
  assert (Child : forall b t s, J t s -> exists t' s',
    match sub t (p ++ [b]) with Nil => Ok (t, s) | Node _ _ _ _ => walk flt cb (p ++ [b]) t s fuel end = Ok (t', s') /\
    J t' s' /\ ext t t').
  { intros b t1 s1 Hj1. destruct (sub t1 (p ++ [b])) eqn:Q.
    - exists t1, s1. split; auto. split; auto. apply ext_refl.
    - apply IH; auto; [rewrite app_length; cbn [length]; lia|rewrite Q; discriminate]. }
  assert (Descend : forall t s, J t s -> exists t' s',
    (do (t, s) <- match sub t (p ++ [false]) with Nil => Ok (t, s) | Node _ _ _ _ => walk flt cb (p ++ [false]) t s fuel end;
     match sub t (p ++ [true]) with Nil => Ok (t, s) | Node _ _ _ _ => walk flt cb (p ++ [true]) t s fuel end) = Ok (t', s') /\
    J t' s' /\ ext t t').
  { intros t1 s1 Hj1. destruct (Child false t1 s1 Hj1) as (t2 & s2 & E2 & J2 & X2). rewrite E2. cbn [bind].
    destruct (Child true t2 s2 J2) as (t3 & s3 & E3 & J3 & X3). rewrite E3.
    exists t3, s3. split; auto. split; auto. now apply ext_trans with t2. }
  destruct (sub t p) as [|d n z o] eqn:Q; [congruence|].
  destruct d; [exists t, s; split; auto; split; auto; apply ext_refl|].
  destruct n as [x|]; [|auto].
  destruct (flt x) eqn:Fx; [exists t, s; split; auto; split; auto; apply ext_refl|].
  destruct (J_step t s p x Hj ltac:(unfold nt; now rewrite Q) Fx) as (t1 & s1 & E1 & J1 & X1).
  rewrite E1. cbn [bind]. destruct (Descend t1 s1 J1) as (t2 & s2 & E2 & J2 & X2). rewrite E2.
  exists t2, s2. split; auto. split; auto. now apply ext_trans with t1.
Qed.
End WalkInv.

Lemma merge_spec ctz0 held t : tree_ok t ->
  (forall x, held x = true) \/
  (forall n x p r, nt t p = Some n -> nt t r = Some x -> no_merge ctz0 x n) ->
  exists t', merge ctz0 held t = Ok t' /\ tree_ok t' /\ keeps t t'.
Proof.
  intros T Safe. unfold merge, tree_walk.
  destruct (walk_inv (fun _ => false) (fun x t l => merge_step ctz0 held false x t l 130)
    (fun t' L => exists l, minv t' L l /\ keeps t t' /\
       ((forall x, held x = true) \/
        (forall n x p r, nt t p = Some n -> nt t r = Some x -> no_merge ctz0 x n) /\
        t' = t /\ forall e, In e l -> nt t (path e) = Some e)))
    with (fuel := 129%nat) (p := @nil bool) (t := t) (s := list_new) as (t' & L' & E & (l' & I & Ks & _) & _).
  - intros t' L (l & I & _). apply I.
  - intros t' L p x (l & I & Ks & Sf) Nx _.
    destruct (wf_nt [] t' p x (proj1 (mi_tree _ _ _ I)) Nx) as [Wx Px]. cbn [app] in Px.
    assert (Nx' : nt t' (path x) = Some x) by now rewrite Px.
    destruct (merge_step_spec ctz0 held 130 false x t' L l) as (t2 & L2 & E2 & l2 & I2 & K2 & X2 & O2); auto.
    { pose proof (w_prefix x Wx). lia. }
    { destruct Sf as [Sf|(Sf & -> & In_t)]; auto. right. right. intros n Hn. eapply Sf; eauto. }
    exists t2, L2. split; auto. split; auto. exists l2. split; auto. split; [now apply keeps_trans with t'|].
    destruct Sf as [Sf|(Sf & -> & In_t)]; auto. right. split; auto.
    destruct O2 as [[-> O2]|(n & O2 & O3)].
    + split; auto. intros e Ie. apply O2 in Ie as [->|Ie]; auto.
    + exfalso. apply O3. eapply Sf; eauto.
  - apply Nat.le_add_r.
  - exists []. split.
    + constructor; auto; [apply list_new_repr|apply sorted_nil|]. intros e q [].
    + split; [apply keeps_refl|]. destruct Safe as [Sf|Sf]; auto. right. split; auto. split; auto. intros e [].
  - destruct T as [_ L]. destruct t; [destruct L|discriminate].
  - rewrite E. cbn [bind]. exists t'. split; auto. split; auto. apply I.
Qed.

(** pruning *)
Lemma prune_sem t : forall q bits acc, wf_at q t -> sem (prune t) bits acc = sem t bits acc.
Proof.
  induction t as [|d n z IHz o IHo]; intros q bits acc W; auto. destruct W as (_ & W2 & _ & W4 & W5).
  cbn [prune]. destruct d.
  - destruct (W2 eq_refl) as (-> & -> & ->). destruct bits as [|[] bits]; reflexivity.
  - assert (H : sem (Node false n (prune z) (prune o)) bits acc = sem (Node false n z o) bits acc).
    { destruct bits as [|[] bits]; cbn [sem]; eauto. }
    destruct n as [x|]; [exact H|].
    destruct (prune z) eqn:Ez; [|exact H]. destruct (prune o) eqn:Eo; [|exact H].
    rewrite <- H. destruct bits as [|[] bits]; reflexivity.
Qed.

Lemma prune_nt t : forall q r, wf_at q t -> nt (prune t) r = nt t r.
Proof.
  induction t as [|d n z IHz o IHo]; intros q r W; auto. destruct W as (_ & W2 & _ & W4 & W5).
  cbn [prune]. destruct d.
  - destruct (W2 eq_refl) as (-> & -> & ->). destruct r as [|[] r]; unfold nt; cbn [sub net_of]; now rewrite ?sub_nil.
  - assert (H : nt (Node false n (prune z) (prune o)) r = nt (Node false n z o) r).
    { destruct r as [|[] r]; auto; rewrite !nt_cons; eauto. }
    destruct n as [x|]; [exact H|].
    destruct (prune z) eqn:Ez; [|exact H]. destruct (prune o) eqn:Eo; [|exact H].
    rewrite <- H. destruct r as [|[] r]; unfold nt; cbn [sub net_of]; now rewrite ?sub_nil.
Qed.

Lemma prune_complete F t : forall c, complete F c t -> complete F c (prune t).
Proof.
  induction t as [|d n z IHz o IHo]; intros c H; auto. cbn [prune].
  destruct d; [exact I|].
  assert (G : complete F c (Node false n (prune z) (prune o))).
  { destruct n as [x|]; cbn [complete] in *; [|destruct H; auto].
    destruct (family_eqb F (n_family x)); auto. destruct H as (H1 & H2 & H3). auto. }
  destruct n as [x|]; [exact G|]. destruct (prune z); [|exact G]. destruct (prune o); [exact I|exact G].
Qed.

(** no deleted nodes and no superfluous ones *)
Fixpoint tidy (t : tree) : Prop :=
  match t with
  | Nil => True
  | Node d n z o => d = false /\ (n = None -> z <> Nil \/ o <> Nil) /\ tidy z /\ tidy o
  end.

Lemma prune_tidy t : tidy (prune t).
Proof.
  induction t as [|d n z IHz o IHo]; cbn [prune]; [exact I|]. destruct d; [exact I|].
  destruct n as [x|].
  - cbn [tidy]. split; auto. split; [discriminate|auto].
  - destruct (prune z); [destruct (prune o); [exact I|]|]; cbn [tidy] in *.
    + split; auto. split; [intros _; right; discriminate|auto].
    + split; auto. split; [intros _; left; discriminate|auto].
Qed.

Lemma prune_wf t : forall q, wf_at q t -> wf_at q (prune t).
Proof.
  induction t as [|d n z IHz o IHo]; intros q W; auto. cbn [prune].
  destruct W as (W1 & W2 & W3 & W4 & W5). destruct d; [exact I|].
  assert (G : wf_at q (Node false n (prune z) (prune o))).
  { cbn [wf_at]. split; auto. split; [discriminate|]. auto. }
  destruct n as [x|]; [exact G|]. destruct (prune z); [|exact G]. destruct (prune o); [exact I|exact G].
Qed.

Definition clean (t : tree) : Prop := match t with Nil => False | Node d n z o => d = false /\ tidy z /\ tidy o end.

Lemma delete_nodes_spec t : tree_ok t -> let t' := delete_nodes t in
  tree_ok t' /\ keeps t t' /\ clean t' /\ (forall r, nt t' r = nt t r).
Proof.
  intros [W L]. destruct t as [|[] n z o]; [destruct L|destruct L|]. cbn [delete_nodes].
  destruct W as (W1 & W2 & W3 & W4 & W5).
  assert (N : forall r, nt (Node false n (prune z) (prune o)) r = nt (Node false n z o) r).
  { intros [|[] r]; auto; rewrite !nt_cons; eapply prune_nt; eauto. }
  split; [|split; [|split; [|exact N]]].
  - split; [|exact I]. cbn [wf_at]. split; auto. split; [discriminate|]. split; auto. split; now apply prune_wf.
  - constructor.
    + intros [|[] bits] acc _; cbn [sem]; auto; eapply prune_sem; eauto.
    + intros F H. destruct n as [x|]; cbn [complete] in *.
      * destruct (family_eqb F (n_family x)); auto. destruct H as (H1 & H2 & H3).
        split; auto. split; now apply prune_complete.
      * destruct H. split; now apply prune_complete.
    + intros w r y _ P Ny F. rewrite N in Ny. eauto.
    + intros Fl p r y y' Ny Ny' P. rewrite N in Ny, Ny'. eauto.
    + intros r y _ Ny. now rewrite N in Ny.
    + intros r y Ny. exists r, y. rewrite N. split; [exists []; now rewrite app_nil_r|auto].
    + intros v r y _ P Ny. rewrite N in Ny. eauto.
    + intros r y Ny. rewrite N in Ny. now apply (built_net _ _ _ r y).
  - cbn [clean]. split; auto. split; apply prune_tidy.
Qed.

(** loc_network_tree_cleanup *)
Lemma cleanup_spec ctz0 held t : tree_ok t ->
  (forall x, held x = true) \/
  (forall n x p r, nt t p = Some n -> nt t r = Some x -> no_merge ctz0 x n) ->
  exists t', cleanup ctz0 held t = Ok t' /\ tree_ok t' /\ clean t' /\
    (forall bits, length bits = 128%nat -> sem t' bits None = sem t bits None) /\
    complete AF_INET6 None t' /\ complete AF_INET None t' /\
    (forall w r' y', length w = 128%nat -> pre r' w -> nt t' r' = Some y' -> n_family y' = AF_INET6 ->
      exists r y, pre r w /\ nt t r = Some y /\ n_family y = AF_INET6) /\
    (flat t -> flat t').
Proof.
  intros T Safe. destruct (dedup_spec t T) as (t1 & E1 & T1 & S1 & C6 & C4 & N1).
  unfold cleanup. rewrite E1. cbn [bind].
  destruct (merge_spec ctz0 held t1 T1) as (t2 & E2 & T2 & [K2 K2' K2'' F2 _ _ _ _]).
  { destruct Safe as [Sf|Sf]; auto. right. intros n x p r Hn Hx. eapply Sf; eauto. }
  rewrite E2. cbn [bind]. destruct (delete_nodes_spec t2 T2) as (T3 & [K3 K3' K3'' F3 _ _ _ _] & C3 & _).
  exists (delete_nodes t2). split; auto. split; auto. split; auto.
  split. { intros bits L. now rewrite K3, K2, S1. }
  split; auto. split; auto. split.
  - intros w r y L P N F. destruct (K3'' w r y L P N F) as (r2 & y2 & P2 & N2 & G2).
    destruct (K2'' w r2 y2 L P2 N2 G2) as (r1 & y1 & P1 & Ny1 & F1). eauto 6.
  - intros Fl. apply F3, F2. intros p r y z Ny Nz P. eapply Fl; eauto.
Qed.

(** networks of a single address are not made; every address keeps the attributes of
    all networks it is in *)
Lemma cleanup_covers ctz0 held t : tree_ok t ->
  (forall x, held x = true) \/
  (forall n x p r, nt t p = Some n -> nt t r = Some x -> no_merge ctz0 x n) ->
  exists t', cleanup ctz0 held t = Ok t' /\
    (forall r y, length r = 128%nat -> nt t' r = Some y -> nt t r = Some y) /\
    (forall r y, nt t r = Some y -> exists r' y', pre r' r /\ nt t' r' = Some y' /\ at3 y' = at3 y) /\
    (forall w r' y', length w = 128%nat -> pre r' w -> nt t' r' = Some y' -> exists r y, pre r w /\ nt t r = Some y /\ at3 y = at3 y') /\
    (forall r y, nt t' r = Some y -> built t (n_family y) (at3 y) r).
Proof.
  intros T Safe. destruct (dedup_spec t T) as (t1 & E1 & T1 & _ & _ & _ & N1). pose proof (dedup_in t t1 T E1) as D1.
  unfold cleanup. rewrite E1. cbn [bind].
  destruct (merge_spec ctz0 held t1 T1) as (t2 & E2 & T2 & K2).
  { destruct Safe as [Sf|Sf]; auto. right. intros n x p q Hn Hx. eapply Sf; eauto. }
  rewrite E2. cbn [bind]. destruct (delete_nodes_spec t2 T2) as (T3 & K3 & _).
  exists (delete_nodes t2). split; auto. pose proof (keeps_trans _ _ _ K2 K3) as K4. split; [|split; [|split]].
  - intros r y Lr N. apply N1. apply (kp_single _ _ K4); auto.
  - intros r y N. destruct (D1 r y N) as (r1 & y1 & P1 & Ny1 & A1). destruct (kp_in _ _ K4 r1 y1 Ny1) as (r2 & y2 & P2 & Ny2 & A2).
    exists r2, y2. split; [eapply pre_trans; eauto|]. split; auto. congruence.
  - intros w r y L P N. destruct (kp_out _ _ K4 w r y L P N) as (r1 & y1 & P1 & Ny1 & A1). eauto 6.
  - intros r y N. apply (built_mono t t1); [|now apply (kp_built _ _ K4)].
    intros q z Nz. apply (built_net _ _ _ q z); auto.
Qed.
