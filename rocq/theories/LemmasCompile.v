(** Compilation of a database: the rows *)
From Coq Require Import NArith ZArith List Bool Lia ZifyBool ZifyNat ZifyN Permutation Sorted.
From Verif Require Import Base ModelCountryCode ModelStringPool LemmasStringPool ModelImport SpecImport LemmasImportRange LemmasImportTable
  ModelCompile SpecCompile.
Import ListNotations.
Open Scope N_scope.

(** ** SQL *)
Lemma contains_spec : forall a b, net_wf a -> net_wf b ->
  (contains a b = true <-> p_bits a = p_bits b /\ p_len a <= p_len b /\ forall v, holds b v -> holds a v).
Proof.
  intros a b Wa Wb.
  assert (Hb : holds b (p_base b)) by (unfold holds; pose proof (size_pos b); lia).
  destruct (N.eq_dec (p_len a) (p_len b)) as [E|NE].
  - unfold contains. rewrite !andb_true_iff, N.leb_le, !N.eqb_eq. split.
    + intros [[B L] D]. split; [exact B|]. split; [exact L|].
      destruct (base_mult a Wa) as [x X], (base_mult b Wb) as [y Y].
      assert (SZ : size_of a = size_of b) by (unfold size_of; rewrite B, E; reflexivity).
      fold (size_of a) in D. rewrite X, Y, <- SZ in D. pose proof (size_pos a) as P.
      rewrite !N.div_mul in D by lia. subst y. unfold holds. rewrite X, Y, SZ. auto.
    + intros (B & L & H). split; [split; [exact B|exact L]|].
      replace b with a; [reflexivity|]. exact (same_level a b _ Wa Wb B E (H _ Hb) Hb).
  - assert (I : contains a b = inside b a).
    { unfold contains, inside. rewrite (N.eqb_sym (p_bits b)), (N.eqb_sym (p_base b / _)).
      f_equal. f_equal. lia. }
    rewrite I. rewrite inside_within by assumption. unfold within. split.
    + intros (B & L & H). split; [congruence|]. split; [lia|exact H].
    + intros (B & L & H). split; [congruence|]. split; [lia|exact H].
Qed.
Lemma best_some : forall A (net : A -> pnet) t m r, best net t m = Some r ->
  In r t /\ contains (net r) m = true /\ forall q, In q t -> contains (net q) m = true -> p_len (net q) <= p_len (net r).
Proof.
  induction t as [|x t IH]; cbn; intros m r H; [discriminate|].
  destruct (contains (net x) m) eqn:C.
  - destruct (best net t m) as [p|] eqn:B.
    + destruct (IH m p B) as (P1 & P2 & P3). destruct (p_len (net x) <? p_len (net p)) eqn:L.
      * assert (p = r) by congruence. subst r. split; [tauto|]. split; [exact P2|]. intros q [->|Q] Cq; [lia|auto].
      * assert (x = r) by congruence. subst r. split; [tauto|]. split; [exact C|]. intros q [->|Q] Cq; [lia|].
        pose proof (P3 q Q Cq). lia.
    + assert (x = r) by congruence. subst r. split; [tauto|]. split; [exact C|]. intros q [->|Q] Cq; [lia|].
      exfalso. clear - B Q Cq. revert B. induction t as [|y t IH]; [destruct Q|]. cbn.
      destruct Q as [->|Q].
      * rewrite Cq. destruct (best net t m); [destruct (_ <? _)|]; discriminate.
      * destruct (contains (net y) m); [|exact (IH Q)]. destruct (best net t m); [destruct (_ <? _)|]; discriminate.
  - destruct (IH m r H) as (P1 & P2 & P3). split; [tauto|]. split; [exact P2|]. intros q [->|Q] Cq; [congruence|auto].
Qed.
Lemma best_none : forall A (net : A -> pnet) t m, best net t m = None -> forall q, In q t -> contains (net q) m = false.
Proof.
  induction t as [|y t IH]; cbn; intros m B q Q; [destruct Q|].
  destruct (contains (net y) m) eqn:C.
  - destruct (best net t m); [destruct (_ <? _)|]; discriminate.
  - destruct Q as [->|Q]; [exact C|exact (IH m B q Q)].
Qed.
Section Distinct.
  Context {A : Type} (net : A -> pnet).
  Let f t r := if existsb (fun q => pnet_eqb (net q) (net r)) t then t else t ++ [r].
  Lemma f_known : forall t r, existsb (fun q => pnet_eqb (net q) (net r)) t = true <-> In (net r) (map net t).
  Proof.
    intros t r. rewrite existsb_exists, in_map_iff. split; intros (q & E & Q); exists q.
    - apply pnet_eqb_eq in Q. auto.
    - split; [exact Q|]. apply pnet_eqb_eq. exact E.
  Qed.
  Lemma distinct_spec : forall l,
    NoDup (map net (distinct net l)) /\ (forall r, In r (distinct net l) -> In r l) /\
    (forall r, In r l -> In (net r) (map net (distinct net l))).
  Proof.
    intro l. unfold distinct. change (fold_left _ l []) with (fold_left f l []).
    enough (G : forall t, NoDup (map net t) -> NoDup (map net (fold_left f l t)) /\
      (forall r, In r (fold_left f l t) -> In r t \/ In r l) /\
      (forall r, In r t \/ In r l -> In (net r) (map net (fold_left f l t)))).
    { destruct (G [] (NoDup_nil _)) as (G1 & G2 & G3). split; [exact G1|]. split; [|auto].
      intros r R. destruct (G2 r R) as [[]|]; assumption. }
    induction l as [|x l IH]; intros t D.
    - cbn. split; [exact D|]. split; [auto|]. intros r [R|[]]. apply in_map, R.
    - cbn [fold_left].
      assert (D' : NoDup (map net (f t x)) /\ (forall r, In r (f t x) -> In r t \/ r = x) /\
                   (forall r, In r t \/ r = x -> In (net r) (map net (f t x)))).
      { unfold f. destruct (existsb _ t) eqn:E.
        - apply f_known in E. split; [exact D|]. split; [auto|]. intros r [R| ->]; [apply in_map, R|exact E].
        - assert (N : ~ In (net x) (map net t)) by (rewrite <- f_known, E; discriminate).
          rewrite map_app. cbn. split.
          + apply NoDup_Add with (a := net x) (l := map net t); [|split; assumption].
            pose proof (Add_app (net x) (map net t) []) as X. rewrite app_nil_r in X. exact X.
          + split; [intros r R; apply in_app_or in R; destruct R as [R|[<-|[]]]; auto|].
            intros r [R| ->]; apply in_or_app; [left; apply in_map, R|right; left; reflexivity]. }
      destruct D' as (D1 & D2 & D3). destruct (IH (f t x) D1) as (G1 & G2 & G3).
      split; [exact G1|]. split.
      + intros r R. destruct (G2 r R) as [X|X]; [destruct (D2 r X) as [|<-]; cbn; auto|cbn; auto].
      + intros r [R|[<-|R]]; [| |apply G3; auto].
        * assert (X : In (net r) (map net (f t x))) by auto. apply in_map_iff in X. destruct X as (q & <- & Q). auto.
        * assert (X : In (net x) (map net (f t x))) by auto. apply in_map_iff in X. destruct X as (q & <- & Q). auto.
  Qed.
End Distinct.
Lemma insert_by_perm : forall A (b : A -> A -> bool) x l, Permutation (x :: l) (insert_by b x l).
Proof.
  induction l as [|y l IH]; cbn; [apply Permutation_refl|]. destruct (b y x); [|apply Permutation_refl].
  apply perm_trans with (y :: x :: l); [apply perm_swap|apply perm_skip, IH].
Qed.
Lemma order_by_perm : forall A (b : A -> A -> bool) l, Permutation l (order_by b l).
Proof.
  induction l as [|x l IH]; cbn; [apply Permutation_refl|].
  apply perm_trans with (x :: order_by b l); [apply perm_skip, IH|apply insert_by_perm].
Qed.
Lemma order_by_in : forall A (b : A -> A -> bool) l x, In x (order_by b l) <-> In x l.
Proof.
  intros. split; apply Permutation_in; [apply Permutation_sym|]; apply order_by_perm.
Qed.
(** total and transitive on the keys of the list: strictly sorted *)
Lemma order_by_sorted : forall A (b : A -> A -> bool) l,
  (forall x y z, In x l -> In y l -> In z l -> b x y = true -> b y z = true -> b x z = true) ->
  ForallOrdPairs (fun x y => b x y = true \/ b y x = true) l ->
  StronglySorted (fun x y => b x y = true) (order_by b l).
Proof.
  intros A b. 
  assert (INS : forall l x, (forall x' y z, In x' (x :: l) -> In y (x :: l) -> In z (x :: l) -> b x' y = true -> b y z = true -> b x' z = true) ->
    Forall (fun y => b x y = true \/ b y x = true) l -> StronglySorted (fun x y => b x y = true) l ->
    StronglySorted (fun x y => b x y = true) (insert_by b x l)).
  { induction l as [|y l IH]; intros x T F S0; cbn; [repeat constructor|].
    apply StronglySorted_inv in S0. destruct S0 as [S0 M]. apply Forall_cons_iff in F. destruct F as [F1 F2].
    destruct (b y x) eqn:E.
    - constructor.
      + apply IH; [|exact F2|exact S0]. intros a c d Ha Hc Hd. apply T; cbn in *; tauto.
      + apply Forall_forall. intros z Z. pose proof (Permutation_in _ (Permutation_sym (insert_by_perm _ b x l)) Z) as [<-|Z']; [exact E|].
        rewrite Forall_forall in M. auto.
    - destruct F1 as [F1|F1]; [|congruence]. constructor; [constructor; [exact S0|exact M]|].
      constructor; [exact F1|]. apply Forall_forall. intros z Z. rewrite Forall_forall in M.
      apply (T x y z); cbn; auto. }
  induction l as [|x l IH]; intros T P; cbn; [constructor|]. inversion P as [|? ? P1 P2]; subst.
  apply INS.
  - assert (K : forall q, In q (x :: order_by b l) -> In q (x :: l)).
    { intros q [->|Q]; [left; reflexivity|right]. apply order_by_in in Q. exact Q. }
    intros a c d Ha Hc Hd. apply T; auto.
  - apply Forall_forall. intros y Y. apply order_by_in in Y. rewrite Forall_forall in P1. auto.
  - apply IH; [|exact P2]. intros a c d Ha Hc Hd. apply T; cbn; tauto.
Qed.
Lemma collect_some : forall A B (f : A -> option B) l r, collect f l = Some r -> Forall2 (fun x y => f x = Some y) l r.
Proof.
  induction l as [|x l IH]; cbn; intros r H.
  - assert (r = []) by congruence. subst. constructor.
  - destruct (f x) as [y|] eqn:E; [|discriminate]. destruct (collect f l) as [q|]; [|discriminate].
    assert (r = y :: q) by congruence. subst. constructor; [exact E|auto].
Qed.
Lemma collect_none : forall A B (f : A -> option B) l, collect f l = None <-> exists x, In x l /\ f x = None.
Proof.
  induction l as [|x l IH]; cbn; [split; [discriminate|intros (x & [] & _)]|].
  destruct (f x) as [y|] eqn:E.
  - destruct (collect f l) as [q|].
    + split; [discriminate|]. intros (z & [<-|Z] & Q); [congruence|].
      assert (X : exists x, In x l /\ f x = None) by eauto. apply IH in X. discriminate.
    + split; [|reflexivity]. intros _. destruct (proj1 IH eq_refl) as (z & Z & Q). eauto.
  - split; [|reflexivity]. intros _. exists x. auto.
Qed.

Lemma forall2_in_l : forall A B (R : A -> B -> Prop) l r x, Forall2 R l r -> In x l -> exists y, In y r /\ R x y.
Proof.
  intros A B R l r x F. induction F as [|a b l r H F IH]; intro I; [destruct I|].
  destruct I as [<-|I]; [exists b; split; [left; reflexivity|exact H]|].
  destruct (IH I) as (y & Y & Q). exists y. split; [right; exact Y|exact Q].
Qed.
Lemma forall2_in_r : forall A B (R : A -> B -> Prop) l r y, Forall2 R l r -> In y r -> exists x, In x l /\ R x y.
Proof.
  intros A B R l r y F. induction F as [|a b l r H F IH]; intro I; [destruct I|].
  destruct I as [<-|I]; [exists a; split; [left; reflexivity|exact H]|].
  destruct (IH I) as (x & X & Q). exists x. split; [right; exact X|exact Q].
Qed.

(** ** The rows *)
Lemma all_networks_known : forall t n, In n (all_networks t) <-> known t n.
Proof.
  intros t n. unfold all_networks. set (l := _ ++ _).
  assert (E : In n (distinct (fun n => n) l) <-> In n l).
  { destruct (distinct_spec (fun n : pnet => n) l) as (_ & D2 & D3). split; [apply D2|]. intro H.
    apply D3 in H. rewrite map_id in H. exact H. }
  rewrite E. unfold l, known. rewrite !in_app_iff, !in_map_iff. clear. split.
  - intros [H|[H|[H|[H|H]]]].
    + destruct H as ([x a] & <- & H). left. exists a. exact H.
    + destruct H as ([x a] & <- & H). right. left. exists a. exact H.
    + destruct H as ([x a] & <- & H). right. right. left. exists a. exact H.
    + destruct H as ([x a] & <- & H). right. right. right. left. exists a. exact H.
    + destruct H as ([x [y a]] & <- & H). right. right. right. right. exists x, a. exact H.
  - intros [[a H]|[[a H]|[[a H]|[[a H]|(x & a & H)]]]].
    + left. exists (n, a). auto.
    + right. left. exists (mkRow n a). auto.
    + right. right. left. exists (n, a). auto.
    + right. right. right. left. exists (n, a). auto.
    + right. right. right. right. exists (x, mkRow n a). auto.
Qed.
Lemma compile_row_net : forall t m r, compile_row t m = Some r -> n_net r = m.
Proof.
  intros t m r H. unfold compile_row in H. destruct (step_autnum t (mkN m None null)) as [r0|] eqn:E; [|discriminate].
  cbn in H. assert (Q : n_net r0 = m).
  { unfold step_autnum in E. cbn [n_net n_at] in E. destruct (best fst (t_announcements t) m) as [[? a]|]; [destruct (2 ^ 31 <=? a); [discriminate|]|];
    assert (X : Some (n_net r0) = Some m) by (apply (f_equal (option_map n_net)) in E; cbn in E; congruence); congruence. }
  assert (AP : forall x r, n_net (apply x r) = n_net r) by (intros [] ?; reflexivity).
  apply (f_equal (option_map n_net)) in H. cbn in H.
  unfold step_as_overrides, step_overrides, step_as_feeds, step_feeds in H. rewrite !AP in H.
  unfold step_geofeed in H. destruct (best r_net (geofeed_rows t) _); cbn in H; unfold step_country in H; destruct (best r_net (t_networks t) _); cbn in H; congruence.
Qed.
Definition one_net (l : list nrow) : Prop := NoDup (map n_net l).
Lemma compile_rows_nets : forall t rows, compile_rows t = Some rows ->
  Permutation (all_networks t) (map n_net rows) /\ forall r, In r rows -> compile_row t (n_net r) = Some r.
Proof.
  intros t rows H. unfold compile_rows in H. destruct (collect (compile_row t) (all_networks t)) as [l|] eqn:E; [|discriminate].
  cbn in H. apply collect_some in E. assert (Q : rows = order_by (fun a b => net_before (n_net a) (n_net b)) l) by congruence. subst rows. split.
  - apply perm_trans with (map n_net l).
    + replace (map n_net l) with (all_networks t); [apply Permutation_refl|].
      clear - E. induction E as [|x y l r H F IH]; [reflexivity|]. cbn. rewrite (compile_row_net _ _ _ H), IH. reflexivity.
    + apply Permutation_map, order_by_perm.
  - intros r R. apply order_by_in in R. destruct (forall2_in_r _ _ _ _ _ _ E R) as (x & _ & X).
    rewrite (compile_row_net _ _ _ X). exact X.
Qed.

Lemma order_by_map_nodup : forall t, NoDup (all_networks t).
Proof.
  intro t. unfold all_networks. match goal with |- NoDup (distinct _ ?l) => destruct (distinct_spec (fun n : pnet => n) l) as (D & _) end.
  rewrite map_id in D. exact D.
Qed.

(** ** One row and one address *)
Section Row.
  Variable t : tables.
  Hypothesis wf : tables_wf t.
  Variables (m : pnet) (bits v : N).
  Hypothesis inm : known t m.
  Hypothesis mbits : p_bits m = bits.
  Hypothesis hm : holds m v.
  Hypothesis top : forall n, known t n -> p_bits n = bits -> holds n v -> p_len n <= p_len m.

  Lemma contains_covers : forall n, known t n -> (contains n m = true <-> p_bits n = bits /\ holds n v).
  Proof.
    intros n Kn. assert (Wn : net_wf n) by (apply wf, Kn). assert (Wm : net_wf m) by (apply wf, inm).
    rewrite contains_spec by assumption. split.
    - intros (B & _ & H). split; [congruence|]. apply H, hm.
    - intros [B H]. split; [congruence|]. pose proof (top n Kn B H) as L. split; [exact L|].
      apply (nested m n v); auto. congruence.
  Qed.
  Lemma best_consult : forall A (net : A -> pnet) (l : list A), (forall r, In r l -> known t (net r)) ->
    consult net (fun r => In r l) bits v (best net l m).
  Proof.
    intros A net l K. destruct (best net l m) as [r|] eqn:E; cbn.
    - destruct (best_some _ _ _ _ _ E) as (R1 & R2 & R3). split.
      + split; [exact R1|]. apply contains_covers; auto.
      + intros q (Q1 & Q2 & Q3). apply R3; [exact Q1|]. apply contains_covers; auto.
    - intros q (Q1 & Q2 & Q3). pose proof (best_none _ _ _ _ E q Q1) as F.
      assert (X : contains (net q) m = true) by (apply contains_covers; auto). congruence.
  Qed.
  Lemma geofeed_known : forall r, approved t r -> known t (r_net r).
  Proof.
    intros [n c] (id & url & x & _ & _ & H & _). right. right. right. right. exists id, c. exact H.
  Qed.
  Definition joined_rows : list row := 
    (flat_map (fun g =>
       flat_map (fun a =>
         if cstr_eqb (snd g) (snd a) then
           flat_map (fun r => if (fst g =? fst r) && contains (fst a) (r_net (snd r)) then [snd r] else [])
             (t_geofeed_networks t)
         else []) (t_network_geofeeds t)) (t_geofeeds t)).
  Lemma joined_approved : forall r, In r joined_rows <-> approved t r.
  Proof.
    intro r. unfold joined_rows. rewrite in_flat_map. split.
    - intros ([id url] & G & H). apply in_flat_map in H. destruct H as ([n u] & N1 & H). cbn [fst snd] in H.
      destruct (cstr_eqb url u) eqn:E; [|destruct H]. apply cstr_eqb_eq in E. subst u.
      apply in_flat_map in H. destruct H as ([id' q] & Q & H). cbn [fst snd] in H.
      destruct ((id =? id') && contains n (r_net q)) eqn:C; [|destruct H]. destruct H as [<-|[]].
      apply andb_true_iff in C. destruct C as [C1 C2]. apply N.eqb_eq in C1. subst id'.
      assert (Wq : net_wf (r_net q)) by (apply wf; right; right; right; right; exists id, (r_country q); destruct q; exact Q).
      assert (Wn : net_wf n) by (apply (proj2 wf n url), N1).
      apply contains_spec in C2; auto. exists id, url, n. tauto.
    - intros (id & url & n & G & N1 & Q & B & H). exists (id, url). split; [exact G|]. apply in_flat_map.
      exists (n, url). split; [exact N1|]. cbn [fst snd]. rewrite (proj2 (cstr_eqb_eq url url) eq_refl).
      apply in_flat_map. exists (id, r). split; [exact Q|]. cbn [fst snd]. rewrite N.eqb_refl.
      assert (Wq : net_wf (r_net r)) by (apply wf; right; right; right; right; exists id, (r_country r); destruct r; exact Q).
      assert (Wn : net_wf n) by (apply (proj2 wf n url), N1).
      replace (contains n (r_net r)) with true; [left; reflexivity|]. symmetry. apply contains_spec; auto. split; [exact B|]. split; [|exact H].
      destruct (N.le_gt_cases (p_len n) (p_len (r_net r))) as [L|L]; [exact L|exfalso].
      assert (L' : size_of n < size_of (r_net r)).
      { unfold size_of. rewrite B. apply N.pow_lt_mono_r; [lia|]. destruct Wn as (_ & ? & _), Wq as (_ & ? & _). lia. }
      pose proof (size_pos n) as P. pose proof (H (p_base (r_net r))) as H1. pose proof (H (p_base (r_net r) + size_of n)) as H2.
      unfold holds in *. lia.
  Qed.
  Lemma geofeed_consult : consult r_net (approved t) bits v (best r_net (geofeed_rows t) m).
  Proof.
    destruct (distinct_spec r_net joined_rows) as (_ & D2 & D3). change (distinct r_net joined_rows) with (geofeed_rows t) in *.
    assert (K : forall r, In r (geofeed_rows t) -> known t (r_net r)).
    { intros r R. apply geofeed_known, joined_approved, D2, R. }
    pose proof (best_consult _ r_net (geofeed_rows t) K) as C.
    destruct (best r_net (geofeed_rows t) m) as [r|]; cbn in *.
    - destruct C as ((C1 & C2 & C3) & C4). split; [split; [apply joined_approved, D2, C1|auto]|].
      intros q (Q1 & Q2 & Q3). apply joined_approved in Q1. apply D3 in Q1. apply in_map_iff in Q1.
      destruct Q1 as (q' & E & Q'). rewrite <- E. apply C4. split; [exact Q'|]. rewrite E. auto.
    - intros q (Q1 & Q2 & Q3). apply joined_approved in Q1. apply D3 in Q1. apply in_map_iff in Q1.
      destruct Q1 as (q' & E & Q'). apply (C q'). split; [exact Q'|]. rewrite E. auto.
  Qed.
  Lemma number_consult : forall A (l : list (N * A)) n, consult_as l n (by_number l n).
  Proof.
    intros A l [n|]; cbn; [|reflexivity]. destruct (find (fun r => fst r =? n) l) as [[k a]|] eqn:E; cbn.
    - apply find_some in E. destruct E as [E1 E2]. cbn in E2. apply N.eqb_eq in E2. subst k. exact E1.
    - intros a H. apply (find_none _ _ E) in H. cbn in H. rewrite N.eqb_refl in H. discriminate.
  Qed.
  Lemma row_expected : forall r, compile_row t m = Some r -> expected t bits v (n_autnum r) (n_at r).
  Proof.
    intros r H. unfold compile_row in H. destruct (step_autnum t (mkN m None null)) as [r0|] eqn:E; [|discriminate]. cbn in H.
    assert (Kan : forall r, In r (t_announcements t) -> known t (fst r)) by (intros [n a] I; left; exists a; exact I).
    assert (Kn : forall r, In r (t_networks t) -> known t (r_net r)) by (intros [n a] I; right; left; exists a; exact I).
    assert (Kf : forall r, In r (t_network_feeds t) -> known t (fst r)) by (intros [n a] I; right; right; left; exists a; exact I).
    assert (Ko : forall r, In r (t_network_overrides t) -> known t (fst r)) by (intros [n a] I; right; right; right; left; exists a; exact I).
    pose proof (best_consult _ _ _ Kan) as C1. pose proof (best_consult _ _ _ Kn) as C2. pose proof (best_consult _ _ _ Kf) as C3.
    pose proof (best_consult _ _ _ Ko) as C4. pose proof geofeed_consult as C5.
    exists (best fst (t_announcements t) m), (best r_net (t_networks t) m), (best r_net (geofeed_rows t) m),
      (best fst (t_network_feeds t) m), (by_number (t_autnum_feeds t) (n_autnum r)), (best fst (t_network_overrides t) m),
      (by_number (t_autnum_overrides t) (n_autnum r)).
    split; [exact C1|]. split; [exact C2|]. split; [exact C5|]. split; [exact C3|]. split; [apply number_consult|].
    split; [exact C4|]. split; [apply number_consult|].
    assert (E0 : r0 = mkN m (option_map snd (best fst (t_announcements t) m)) null).
    { unfold step_autnum in E. cbn [n_net n_at] in E. destruct (best fst (t_announcements t) m) as [[? a]|]; [destruct (2 ^ 31 <=? a); [discriminate|]|]; cbn; congruence. }
    assert (AP : forall x r, apply x r = mkN (n_net r) (n_autnum r) (match x with Some x => over x (n_at r) | None => n_at r end)) by (intros [] []; reflexivity).
    clear E C1 C2 C3 C4 C5. subst r0. set (asn := option_map snd (best fst (t_announcements t) m)) in *. clearbody asn.
    assert (Hr : r = step_as_overrides t (step_overrides t (step_as_feeds t (step_feeds t (step_geofeed t (step_country t (mkN m asn null))))))) by congruence.
    clear H.
    assert (G : step_geofeed t (step_country t (mkN m asn null)) =
      mkN m asn (mkAttrs (match best r_net (geofeed_rows t) m with Some g => r_country g | None => said r_country (best r_net (t_networks t) m) end) None None None None)).
    { unfold step_geofeed, step_country. cbn. destruct (best r_net (t_networks t) m); cbn; destruct (best r_net (geofeed_rows t) m); reflexivity. }
    rewrite G in Hr. clear G. set (c0 := match best r_net (geofeed_rows t) m with Some g => r_country g | None => said r_country (best r_net (t_networks t) m) end) in *. clearbody c0.
    unfold step_as_overrides, step_overrides, step_as_feeds, step_feeds in Hr. rewrite !AP in Hr. cbn [n_net n_autnum n_at] in Hr.
    assert (Hn : n_autnum r = asn) by (rewrite Hr; reflexivity). rewrite Hn. split; [reflexivity|]. rewrite Hr. cbn [n_at].
    generalize (by_number (t_autnum_overrides t) asn) as x1. generalize (best fst (t_network_overrides t) m) as x2.
    generalize (by_number (t_autnum_feeds t) asn) as x3. generalize (best fst (t_network_feeds t) m) as x4. clear.
    intros x4 x3 x2 x1.
    assert (FS : forall A (x : option A) l, first_said (x :: l) = coalesce x (first_said l)) by (intros A [x|] l; reflexivity).
    assert (CN : forall A (x : option A), coalesce x None = x) by (intros A [x|]; reflexivity).
    cbn [app]. rewrite !FS. cbn [first_said]. rewrite !CN.
    destruct x1 as [[s1 a1]|], x2 as [[s2 a2]|], x3 as [a3|], x4 as [[s4 a4]|]; cbn; rewrite ?CN; repeat split.
  Qed.
End Row.
