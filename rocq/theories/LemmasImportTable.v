(** Selection of networks by the importer *)
From Coq Require Import NArith ZArith List Bool Lia ZifyBool ZifyNat ZifyN Sorted.
From Verif Require Import Base ModelCountryCode ModelStringPool LemmasStringPool ModelImport SpecImport LemmasImportRange.
Import ListNotations.
Open Scope N_scope.

Lemma pnet_eqb_eq : forall a b, pnet_eqb a b = true <-> a = b.
Proof.
  intros [a1 a2 a3] [b1 b2 b3]. unfold pnet_eqb. cbn [p_bits p_base p_len].
  rewrite !andb_true_iff, !N.eqb_eq. split; [intros [[-> ->] ->]; reflexivity|intro E; inversion E; tauto].
Qed.

(** ** Networks that have an address in common *)
Lemma base_mult : forall n, net_wf n -> exists x, p_base n = x * size_of n.
Proof.
  intros n (_ & _ & M & _). apply N.mod_divides in M; [|unfold size_of; pose proof (pow_pos (p_bits n - p_len n)); lia].
  destruct M as [x M]. exists x. rewrite M. apply N.mul_comm.
Qed.
Lemma size_pos : forall n, 0 < size_of n.
Proof. intro n. apply pow_pos. Qed.
Lemma nested : forall a b v, net_wf a -> net_wf b -> p_bits a = p_bits b -> p_len b <= p_len a ->
  holds a v -> holds b v -> forall w, holds a w -> holds b w.
Proof.
  intros a b v Wa Wb B L Ha Hb. destruct (base_mult a Wa) as [x Xa]. destruct (base_mult b Wb) as [y Yb].
  assert (E : size_of b = size_of a * 2 ^ (p_len a - p_len b)).
  { unfold size_of. rewrite <- N.pow_add_r. f_equal. destruct Wa as (_ & ? & _). lia. }
  pose proof (size_pos a) as P. unfold holds in *. rewrite Xa in *. rewrite Yb in *. rewrite E in *.
  set (s := size_of a) in *. set (k := 2 ^ (p_len a - p_len b)) in *. clearbody s k. clear - Ha Hb P.
  assert (H1 : y * k < x + 1).
  { apply (N.mul_lt_mono_pos_r s); [exact P|]. replace (y * k * s) with (y * (s * k)) by (rewrite (N.mul_comm s k); apply N.mul_assoc). lia. }
  assert (H2 : x < y * k + k).
  { apply (N.mul_lt_mono_pos_r s); [exact P|].
    replace ((y * k + k) * s) with (y * (s * k) + s * k); [lia|].
    rewrite N.mul_add_distr_r, <- N.mul_assoc, (N.mul_comm k s). reflexivity. }
  assert (H3 : y * k * s <= x * s) by (apply N.mul_le_mono_r; lia).
  assert (H4 : (x + 1) * s <= (y * k + k) * s) by (apply N.mul_le_mono_r; lia).
  replace (y * (s * k)) with (y * k * s) by (rewrite (N.mul_comm s k); symmetry; apply N.mul_assoc).
  rewrite N.mul_add_distr_r in H4. rewrite (N.mul_comm s k). intros w W. lia.
Qed.
Lemma same_level : forall a b v, net_wf a -> net_wf b -> p_bits a = p_bits b -> p_len a = p_len b ->
  holds a v -> holds b v -> a = b.
Proof.
  intros a b v Wa Wb B L Ha Hb.
  assert (Ra : holds a (p_base a)) by (unfold holds; pose proof (size_pos a); lia).
  assert (Rb : holds b (p_base b)) by (unfold holds; pose proof (size_pos b); lia).
  pose proof (nested a b v Wa Wb B ltac:(lia) Ha Hb _ Ra) as X.
  pose proof (nested b a v Wb Wa ltac:(lia) ltac:(lia) Hb Ha _ Rb) as Y.
  destruct a as [a1 a2 a3], b as [b1 b2 b3]. unfold holds in *. cbn [p_bits p_base p_len] in *. subst. f_equal. lia.
Qed.
Lemma inside_within : forall a b, net_wf a -> net_wf b -> (inside a b = true <-> within a b).
Proof.
  intros a b Wa Wb. unfold inside, within. rewrite !andb_true_iff, !N.eqb_eq, N.ltb_lt. fold (size_of b).
  assert (Ra : holds a (p_base a)) by (unfold holds; pose proof (size_pos a); lia).
  destruct (base_mult b Wb) as [y Yb]. pose proof (size_pos b) as P.
  split.
  - intros [[B L] E]. split; [exact B|]. split; [exact L|]. apply (nested a b (p_base a)); auto; [lia|].
    rewrite Yb, N.div_mul in E by lia. unfold holds. rewrite Yb, <- E.
    pose proof (N.div_mod (p_base a) (size_of b)) as D. pose proof (N.mod_lt (p_base a) (size_of b)) as M.
    rewrite N.mul_comm in D. lia.
  - intros (B & L & H). split; [split; [exact B|exact L]|]. apply H in Ra. unfold holds in Ra.
    rewrite Yb, N.div_mul by lia. rewrite Yb in Ra. symmetry.
    apply (N.div_unique _ _ _ (p_base a - y * size_of b)); [lia|]. rewrite (N.mul_comm (size_of b)). lia.
Qed.
Lemma within_common : forall a b v, net_wf a -> net_wf b -> p_bits a = p_bits b -> p_len b < p_len a ->
  holds a v -> holds b v -> within a b.
Proof.
  intros a b v Wa Wb B L Ha Hb. split; [exact B|]. split; [exact L|].
  apply (nested a b v); auto. lia.
Qed.
Lemma within_wf_holds : forall a b v, within a b -> holds a v -> holds b v.
Proof. intros a b v (_ & _ & H). apply H. Qed.

Lemma row_dec : forall a b : row, {a = b} + {a <> b}.
Proof.
  intros [[a1 a2 a3] a4] [[b1 b2 b3] b4].
  destruct (N.eq_dec a1 b1), (N.eq_dec a2 b2), (N.eq_dec a3 b3); try (right; congruence).
  destruct a4 as [x|], b4 as [y|]; try (right; congruence); [|left; congruence].
  destruct (list_eq_dec N.eq_dec x y); [left; congruence|right; congruence].
Qed.

(** ** The functions *)
Lemma parent_some : forall t n p, parent t n = Some p ->
  In p t /\ inside n (r_net p) = true /\ forall q, In q t -> inside n (r_net q) = true -> p_len (r_net q) <= p_len (r_net p).
Proof.
  induction t as [|r t IH]; intros n p H; [discriminate|]. cbn [parent] in H.
  assert (NI : forall n, parent t n = None -> forall q, In q t -> inside n (r_net q) = true -> False).
  { clear. induction t as [|r t IH]; intros n H q I E; [destruct I|]. cbn [parent] in H.
    destruct I as [->|I].
    - rewrite E in H. destruct (parent t n) as [x|]; [destruct (p_len (r_net x) <? p_len (r_net q))|]; discriminate.
    - destruct (inside n (r_net r)).
      + destruct (parent t n) as [x|]; [destruct (p_len (r_net x) <? p_len (r_net r))|]; discriminate.
      + exact (IH n H q I E). }
  destruct (inside n (r_net r)) eqn:E.
  - destruct (parent t n) as [x|] eqn:X.
    + destruct (IH _ _ X) as (A & B & C). destruct (N.ltb_spec (p_len (r_net x)) (p_len (r_net r))) as [L|L].
      * assert (r = p) by congruence. subst p. split; [left; reflexivity|]. split; [exact E|].
        intros q [->|I] Q; [lia|]. pose proof (C q I Q). lia.
      * assert (x = p) by congruence. subst p. split; [right; exact A|]. split; [exact B|].
        intros q [->|I] Q; [lia|]. exact (C q I Q).
    + assert (r = p) by congruence. subst p. split; [left; reflexivity|]. split; [exact E|].
      intros q [->|I] Q; [lia|]. destruct (NI _ X q I Q).
  - destruct (IH _ _ H) as (A & B & C). split; [right; exact A|]. split; [exact B|].
    intros q [->|I] Q; [congruence|]. exact (C q I Q).
Qed.
Lemma parent_none : forall t n, parent t n = None -> forall q, In q t -> inside n (r_net q) = false.
Proof.
  induction t as [|r t IH]; intros n H q I; [destruct I|]. cbn [parent] in H.
  destruct I as [->|I].
  - destruct (inside n (r_net q)); [|reflexivity].
    destruct (parent t n) as [x|]; [destruct (p_len (r_net x) <? p_len (r_net q))|]; discriminate.
  - destruct (inside n (r_net r)).
    + destruct (parent t n) as [x|]; [destruct (p_len (r_net x) <? p_len (r_net r))|]; discriminate.
    + exact (IH n H q I).
Qed.

Definition free (t : list row) (r : row) : Prop := forall q, In q t -> r_net q <> r_net r.
Lemma known_free : forall t r, existsb (fun q => pnet_eqb (r_net q) (r_net r)) t = false <-> free t r.
Proof.
  intros t r. split.
  - intros E q I N. assert (X : existsb (fun q => pnet_eqb (r_net q) (r_net r)) t = true).
    { apply existsb_exists. exists q. split; [exact I|]. apply pnet_eqb_eq. exact N. }
    congruence.
  - intro F. apply not_true_is_false. intro X. apply existsb_exists in X. destruct X as (q & I & N).
    apply pnet_eqb_eq in N. exact (F q I N).
Qed.
Lemma insert_in : forall rows t, keyed rows -> NoDup rows ->
  forall r, In r (insert t rows) <-> In r t \/ (In r rows /\ free t r).
Proof.
  induction rows as [|x rows IH]; intros t K D r.
  { cbn. tauto. }
  inversion D as [|? ? D1 D2]. subst.
  assert (K' : keyed rows) by (intros a b A B; apply K; right; assumption).
  unfold insert. cbn [fold_left]. fold (insert (if existsb (fun q => pnet_eqb (r_net q) (r_net x)) t then t else t ++ [x]) rows).
  rewrite (IH _ K' D2). destruct (existsb (fun q => pnet_eqb (r_net q) (r_net x)) t) eqn:E.
  - split; [intros [A|[A B]]; [left; exact A|right; split; [right; exact A|exact B]]|].
    intros [A|[[A|A] B]]; [left; exact A| |right; split; assumption]. subst x.
    apply known_free in B. congruence.
  - apply known_free in E. split.
    + intros [A|[A B]].
      * apply in_app_or in A. destruct A as [A|[A|[]]]; [left; exact A|right]. subst. split; [left; reflexivity|exact E].
      * right. split; [right; exact A|]. intros q I. apply B. apply in_or_app. left. exact I.
    + intros [A|[[A|A] B]].
      * left. apply in_or_app. left. exact A.
      * subst. left. apply in_or_app. right. left. reflexivity.
      * right. split; [exact A|]. intros q I N. apply in_app_or in I. destruct I as [I|[I|[]]]; [exact (B q I N)|].
        subst q. assert (x = r) by (apply K; [left; reflexivity|right; exact A|exact N]). subst. contradiction.
Qed.

Lemma max_row : forall (l : list row), l <> [] -> exists r, In r l /\ forall q, In q l -> p_len (r_net q) <= p_len (r_net r).
Proof.
  induction l as [|x l IH]; intro H; [contradiction|]. destruct l as [|y l].
  - exists x. split; [left; reflexivity|]. intros q [->|[]]. lia.
  - destruct IH as (r & A & B); [discriminate|].
    destruct (N.le_gt_cases (p_len (r_net x)) (p_len (r_net r))) as [L|L].
    + exists r. split; [right; exact A|]. intros q [->|I]; [exact L|exact (B q I)].
    + exists x. split; [left; reflexivity|]. intros q [->|I]; [lia|]. pose proof (B q I). lia.
Qed.
Definition holdsb (n : pnet) (v : N) : bool := (p_base n <=? v) && (v <? p_base n + size_of n).
Lemma holdsb_spec : forall n v, holdsb n v = true <-> holds n v.
Proof. intros. unfold holdsb, holds. rewrite andb_true_iff, N.leb_le, N.ltb_lt. tauto. Qed.
Lemma decided : forall (s : list row) bits v q, In q s -> p_bits (r_net q) = bits -> holds (r_net q) v ->
  exists r, decides (fun r => In r s) bits v r.
Proof.
  intros s bits v q I B H.
  destruct (max_row (filter (fun r => (p_bits (r_net r) =? bits) && holdsb (r_net r) v) s)) as (r & A & M).
  - intro E. assert (X : In q (filter (fun r => (p_bits (r_net r) =? bits) && holdsb (r_net r) v) s)).
    { apply filter_In. split; [exact I|]. rewrite andb_true_iff, N.eqb_eq, holdsb_spec. tauto. }
    rewrite E in X. destruct X.
  - apply filter_In in A. destruct A as [A C]. rewrite andb_true_iff, N.eqb_eq, holdsb_spec in C.
    exists r. split; [exact A|]. split; [tauto|]. split; [tauto|]. intros z Z1 Z2 Z3. apply M.
    apply filter_In. split; [exact Z1|]. rewrite andb_true_iff, N.eqb_eq, holdsb_spec. tauto.
Qed.

(** ** The loops *)
Section Copy.
  Variables t0 rir : list row.
  Hypothesis key_t : keyed t0.
  Hypothesis key_r : keyed rir.
  Hypothesis once : NoDup rir.
  Hypothesis wf_t : forall r, In r t0 -> net_wf (r_net r).
  Hypothesis wf_r : forall r, In r rir -> net_wf (r_net r).

  Definition all (D : N -> N -> bool) : list row :=
    t0 ++ filter (fun r => negb (existsb (fun q => pnet_eqb (r_net q) (r_net r)) t0) && D (p_bits (r_net r)) (p_len (r_net r))) rir.
  Lemma in_all : forall D r, In r (all D) <-> In r t0 \/ (In r rir /\ free t0 r /\ D (p_bits (r_net r)) (p_len (r_net r)) = true).
  Proof.
    intros D r. unfold all. rewrite in_app_iff, filter_In, andb_true_iff, negb_true_iff, known_free. tauto.
  Qed.
  Lemma all_wf : forall D r, In r (all D) -> net_wf (r_net r).
  Proof. intros D r H. apply in_all in H. destruct H as [H|[H _]]; auto. Qed.
  Lemma all_keyed : forall D, keyed (all D).
  Proof.
    intros D r q R Q E. apply in_all in R. apply in_all in Q.
    destruct R as [R|(R & F & _)], Q as [Q|(Q & G & _)]; auto.
    - exfalso. exact (G r R E).
    - exfalso. apply (F q Q). symmetry. exact E.
  Qed.

  Definition least (r : row) : Prop := forall q, In q rir -> p_bits (r_net q) = p_bits (r_net r) -> p_len (r_net r) <= p_len (r_net q).
  (** A row that says the same as the one around it says nothing new. *)
  Definition says_more (t : list row) (r : row) : Prop :=
    forall p, around (fun q => In q t) (r_net r) p -> r_country p = None \/ r_country p <> r_country r.
  Record inv (D : N -> N -> bool) (t : list row) : Prop := {
    inv_sub : forall r, In r t -> In r (all D);
    inv_old : forall r, In r t0 -> In r t;
    inv_same : (forall r, In r rir -> r_country r <> None) -> forall bits v r, decides (fun q => In q (all D)) bits v r -> located (fun q => In q t) bits v (r_country r);
    inv_new : forall r, In r t -> free t0 r -> least r \/ says_more t r
  }.

  Lemma provides_more : forall D t c, inv D t -> net_wf (r_net c) -> provides t c = true -> says_more t c.
  Proof.
    intros D t c V W H p (P1 & P2 & P3). unfold provides in H.
    assert (WP : forall q, In q t -> net_wf (r_net q)) by (intros q Q; apply (all_wf D), (inv_sub _ _ V), Q).
    destruct (parent t (r_net c)) as [q|] eqn:E.
    - destruct (parent_some _ _ _ E) as (A & B & C).
      assert (q = p).
      { apply (all_keyed D); [apply (inv_sub _ _ V), A|apply (inv_sub _ _ V), P1|].
        apply inside_within in B; auto.
        assert (L1 : p_len (r_net q) <= p_len (r_net p)) by (apply P3; assumption).
        assert (L2 : p_len (r_net p) <= p_len (r_net q)) by (apply C; [exact P1|apply inside_within; auto]).
        assert (R : holds (r_net c) (p_base (r_net c))) by (unfold holds; pose proof (size_pos (r_net c)); lia).
        apply (same_level _ _ (p_base (r_net c))); auto; try lia.
        - destruct B as (? & _), P2 as (? & _). congruence.
        - eapply within_wf_holds; eauto.
        - eapply within_wf_holds; eauto. }
      subst q. destruct (r_country p) as [x|]; [right|left; reflexivity].
      destruct (r_country c) as [y|]; [|discriminate]. intro Q.
      assert (x = y) by congruence. subst y. rewrite (proj2 (cstr_eqb_eq x x) eq_refl) in H. discriminate.
    - pose proof (parent_none _ _ E p P1) as X. apply inside_within in P2; auto. congruence.
  Qed.

  Definition level (D : N -> N -> bool) (b p : N) : N -> N -> bool := fun b' p' => D b' p' || ((b' =? b) && (p' =? p)).
  Lemma copy_step : forall D t b p g,
    inv D t -> (forall p', D b p' = true -> p' < p) ->
    (g = (fun _ => true) /\ (forall r, In r (of_prefix rir b p) -> least r)) \/ g = provides t ->
    inv (level D b p) (insert t (filter g (of_prefix rir b p))).
  Proof.
    intros D t b p g V DL G.
    set (rows := filter g (of_prefix rir b p)).
    assert (RI : forall r, In r rows -> In r rir /\ p_bits (r_net r) = b /\ p_len (r_net r) = p /\ g r = true).
    { intros r R. apply filter_In in R. destruct R as [R Gr]. apply filter_In in R. destruct R as [R E].
      rewrite andb_true_iff, !N.eqb_eq in E. tauto. }
    assert (IN : forall r, In r (insert t rows) <-> In r t \/ (In r rows /\ free t r)).
    { apply insert_in.
      - intros r q R Q. apply key_r; apply RI; assumption.
      - apply NoDup_filter, NoDup_filter. exact once. }
    assert (SUB : forall r, In r (insert t rows) -> In r (all (level D b p))).
    { intros r R. apply IN in R. apply in_all. destruct R as [R|[R F]].
      - apply (inv_sub _ _ V) in R. apply in_all in R. destruct R as [R|(R & F & X)]; [left; exact R|right].
        split; [exact R|]. split; [exact F|]. unfold level. rewrite X. reflexivity.
      - right. destruct (RI r R) as (A & B & C & _). split; [exact A|]. split.
        + intros q Q. apply F. apply (inv_old _ _ V), Q.
        + unfold level. rewrite B, C, !N.eqb_refl, orb_true_r. reflexivity. }
    assert (NOTNEW : forall r q, In r t -> (free t0 r) -> In q rows -> ~ within (r_net r) (r_net q)).
    { intros r q R F Q (W1 & W2 & _). apply (inv_sub _ _ V) in R. apply in_all in R.
      destruct R as [R|(_ & _ & R)]; [exact (F r R eq_refl)|]. destruct (RI q Q) as (_ & B & C & _).
      rewrite W1, B in R. apply DL in R. lia. }
    split.
    - exact SUB.
    - intros r R. apply IN. left. apply (inv_old _ _ V), R.
    - intros named bits v r (R1 & R2 & R3 & R4). apply in_all in R1 as R1'.
      destruct (in_dec row_dec r (insert t rows)) as [HIN|NIN].
      { exists r. split; [|reflexivity]. split; [exact HIN|]. split; [exact R2|]. split; [exact R3|].
        intros q Q. apply R4. apply SUB. exact Q. }
      assert (C : In r rir /\ free t0 r /\ (D (p_bits (r_net r)) (p_len (r_net r)) = true \/ (p_bits (r_net r) = b /\ p_len (r_net r) = p))).
      { destruct R1' as [X|(X & F & L)].
        - exfalso. apply NIN, IN. left. apply (inv_old _ _ V), X.
        - split; [exact X|]. split; [exact F|]. unfold level in L.
          rewrite orb_true_iff, andb_true_iff, !N.eqb_eq in L. tauto. }
      destruct C as (C1 & C2 & [C3|[C3 C4]]).
      + (* an earlier row *)
        assert (DEC : decides (fun q => In q (all D)) bits v r).
        { split; [apply in_all; right; auto|]. split; [exact R2|]. split; [exact R3|]. intros q Q. apply R4.
          apply in_all in Q. apply in_all. destruct Q as [Q|(Q & F & L)]; [left; exact Q|right].
          split; [exact Q|]. split; [exact F|]. unfold level. rewrite L. reflexivity. }
        destruct (inv_same _ _ V named _ _ _ DEC) as (r' & (Q1 & Q2 & Q3 & Q4) & Q5). exists r'. split; [|exact Q5].
        split; [apply IN; left; exact Q1|]. split; [exact Q2|]. split; [exact Q3|].
        intros q Q B H. apply IN in Q as Q'. destruct Q' as [Q'|[Q' _]]; [apply Q4; assumption|].
        pose proof (R4 q (SUB q Q) B H) as L. destruct (RI q Q') as (_ & B' & P' & _).
        rewrite R2, <- B, B' in C3. apply DL in C3. lia.
      + (* the row has not been copied *)
        assert (NP : provides t r = false).
        { destruct (provides t r) eqn:X; [exfalso|reflexivity]. apply NIN, IN. right. split.
          - apply filter_In. split; [apply filter_In; split; [exact C1|rewrite C3, C4, !N.eqb_refl; reflexivity]|].
            destruct G as [[-> _]| ->]; [reflexivity|exact X].
          - intros q Q E. apply (inv_sub _ _ V) in Q as Q'. apply in_all in Q'.
            destruct Q' as [Q'|(_ & _ & Q')]; [exact (C2 q Q' E)|]. rewrite E, C3, C4 in Q'. apply DL in Q'. lia. }
        unfold provides in NP. destruct (parent t (r_net r)) as [P|] eqn:E; [|discriminate].
        destruct (parent_some _ _ _ E) as (A & B & M).
        assert (WP : forall q, In q t -> net_wf (r_net q)) by (intros q Q; apply (all_wf D), (inv_sub _ _ V), Q).
        apply inside_within in B; auto.
        exists P. split.
        * split; [apply IN; left; exact A|]. split; [destruct B as (B & _); congruence|].
          split; [eapply within_wf_holds; eauto|].
          intros q Q BQ H. pose proof (R4 q (SUB q Q) BQ H) as L.
          assert (Q' := SUB q Q). 
          destruct (N.eq_dec (p_len (r_net q)) (p_len (r_net r))) as [EL|NL].
          { exfalso. apply NIN. replace r with q; [exact Q|]. apply (all_keyed (level D b p)); [exact Q'|exact R1|].
            apply (same_level _ _ v); auto; [eapply all_wf; eassumption|congruence]. }
          apply M.
          -- apply IN in Q. destruct Q as [Q|[Q _]]; [exact Q|]. destruct (RI q Q) as (_ & _ & PQ & _). lia.
          -- apply inside_within; [auto|eapply all_wf; eassumption|]. apply (within_common _ _ v); auto; [eapply all_wf; eassumption|congruence|lia].
        * destruct (r_country P) as [x|]; [|discriminate]. destruct (r_country r) as [y|] eqn:Y.
          -- apply negb_false_iff in NP. apply cstr_eqb_eq in NP. congruence.
          -- exfalso. exact (named r C1 Y).
    - intros r R F. apply IN in R. destruct R as [R|[R FR]].
      + destruct (inv_new _ _ V r R F) as [L|S1]; [left; exact L|right].
        intros P (P1 & P2 & P3). apply S1. split; [|split; [exact P2|]].
        * apply IN in P1. destruct P1 as [P1|[P1 _]]; [exact P1|]. exfalso. exact (NOTNEW r P R F P1 P2).
        * intros q Q. apply P3. apply IN. left. exact Q.
      + destruct (RI r R) as (A & B & C & Gr). destruct G as [[_ G]| ->].
        * left. apply G. apply filter_In. split; [exact A|]. rewrite B, C, !N.eqb_refl. reflexivity.
        * right. intros P (P1 & P2 & P3). apply (provides_more D t r V (wf_r r A) Gr).
          split; [|split; [exact P2|]].
          -- apply IN in P1. destruct P1 as [P1|[P1 _]]; [exact P1|]. exfalso.
             destruct (RI P P1) as (_ & _ & PL & _). destruct P2 as (_ & P2 & _). lia.
          -- intros q Q. apply P3. apply IN. left. exact Q.
  Qed.

  (** ** All prefixes of a family *)
  Lemma inv_ext : forall D D' t, (forall b p, D b p = D' b p) -> inv D t -> inv D' t.
  Proof.
    intros D D' t E V.
    assert (A : all D = all D') by (unfold all; f_equal; apply filter_ext; intro r; rewrite E; reflexivity).
    destruct V as [V1 V2 V3 V4]. rewrite A in *. split; assumption.
  Qed.
  Definition levels (D : N -> N -> bool) (b : N) (ps : list N) : N -> N -> bool :=
    fun b' p' => D b' p' || ((b' =? b) && existsb (N.eqb p') ps).
  Lemma copy_levels : forall b ps D t, inv D t -> StronglySorted N.lt ps ->
    (forall p p', D b p' = true -> In p ps -> p' < p) ->
    inv (levels D b ps) (fold_left (fun t p => insert t (filter (provides t) (of_prefix rir b p))) ps t).
  Proof.
    intros b ps. induction ps as [|p ps IH]; intros D t V ST L; cbn [fold_left].
    { eapply inv_ext; [|exact V]. intros. unfold levels. cbn. rewrite andb_false_r, orb_false_r. reflexivity. }
    apply StronglySorted_inv in ST. destruct ST as [ST F].
    eapply inv_ext; [|apply (IH (level D b p))].
    - intros b' p'. unfold levels, level. cbn [existsb]. destruct (D b' p'), (b' =? b), (p' =? p); reflexivity.
    - apply copy_step; [exact V|intros p' X; apply (L p p' X); left; reflexivity|right; reflexivity].
    - exact ST.
    - intros q p' X I. unfold level in X. rewrite orb_true_iff, andb_true_iff, !N.eqb_eq in X. destruct X as [X|[_ ->]].
      + apply L; [exact X|right; exact I].
      + exact (proj1 (Forall_forall _ _) F q I).
  Qed.

  Lemma sorted_seq : forall n s, StronglySorted N.lt (map N.of_nat (seq s n)).
  Proof.
    induction n as [|n IH]; intro s; cbn [seq map]; constructor; [apply IH|].
    apply Forall_forall. intros x X. apply in_map_iff in X. destruct X as (y & <- & Y). apply in_seq in Y. lia.
  Qed.
  Lemma sorted_filter : forall (f : N -> bool) l, StronglySorted N.lt l -> StronglySorted N.lt (filter f l).
  Proof.
    intros f l H. induction H as [|x l H IH F]; cbn [filter]; [constructor|].
    destruct (f x); [|exact IH]. constructor; [exact IH|]. apply Forall_forall. intros y Y. apply filter_In in Y.
    exact (proj1 (Forall_forall _ _) F y (proj1 Y)).
  Qed.
  Lemma in_prefixes : forall b r, In r rir -> p_bits (r_net r) = b -> In (p_len (r_net r)) (prefixes rir b).
  Proof.
    intros b r R B. apply filter_In. split.
    - apply in_map_iff. exists (N.to_nat (p_len (r_net r))). split; [lia|]. apply in_seq.
      destruct (wf_r r R) as (_ & L & _). lia.
    - assert (X : In r (of_prefix rir b (p_len (r_net r)))) by (apply filter_In; rewrite B, !N.eqb_refl; auto).
      destruct (of_prefix rir b (p_len (r_net r))); [destruct X|reflexivity].
  Qed.
  Lemma copy_family_inv : forall D t b, inv D t -> (forall p, D b p = false) ->
    exists D', inv D' (copy_family rir t b) /\ (forall b' p, b' <> b -> D' b' p = D b' p) /\
      (forall r, In r rir -> p_bits (r_net r) = b -> D' b (p_len (r_net r)) = true).
  Proof.
    intros D t b V E. unfold copy_family.
    assert (ST : StronglySorted N.lt (prefixes rir b)) by (apply sorted_filter, sorted_seq).
    pose proof (in_prefixes b) as IN.
    destruct (prefixes rir b) as [|p ps] eqn:PS.
    { exists D. split; [exact V|]. split; [reflexivity|]. intros r R B. destruct (IN r R B). }
    apply StronglySorted_inv in ST. destruct ST as [ST F].
    exists (levels (level D b p) b ps). split; [|split].
    - apply copy_levels; [|exact ST|].
      + replace (of_prefix rir b p) with (filter (fun _ => true) (of_prefix rir b p)).
        2: { induction (of_prefix rir b p) as [|x l IHl]; [reflexivity|]. cbn [filter]. rewrite IHl. reflexivity. }
        apply copy_step; [exact V|intros p' X; rewrite E in X; discriminate|left].
        split; [reflexivity|]. intros r R q Q B. apply filter_In in R. destruct R as [R C].
        rewrite andb_true_iff, !N.eqb_eq in C. destruct C as [C1 C2].
        destruct (IN q Q) as [X|X]; [congruence|lia|].
        pose proof (proj1 (Forall_forall _ _) F _ X). lia.
      + intros q p' X I. unfold level in X. rewrite E, N.eqb_refl in X. cbn in X. apply N.eqb_eq in X. subst p'.
        exact (proj1 (Forall_forall _ _) F q I).
    - intros b' p' N. unfold levels, level. apply N.eqb_neq in N. rewrite N. cbn. rewrite !orb_false_r. reflexivity.
    - intros r R B. unfold levels, level. rewrite N.eqb_refl. destruct (IN r R B) as [X|X].
      + rewrite X, N.eqb_refl. cbn. rewrite orb_true_r. reflexivity.
      + assert (Y : existsb (N.eqb (p_len (r_net r))) ps = true) by (apply existsb_exists; eexists; split; [exact X|apply N.eqb_refl]).
        rewrite Y. apply orb_true_r.
  Qed.

  Lemma inv_start : inv (fun _ _ => false) t0.
  Proof.
    assert (A : forall r, In r (all (fun _ _ => false)) <-> In r t0).
    { intro r. rewrite in_all. split; [intros [H|(_ & _ & H)]; [exact H|discriminate]|tauto]. }
    split.
    - intros r. apply A.
    - tauto.
    - intros _ bits v r (R1 & R2 & R3 & R4). exists r. split; [|reflexivity].
      split; [apply A; exact R1|]. split; [exact R2|]. split; [exact R3|]. intros q Q. apply R4, A, Q.
    - intros r R F. exfalso. exact (F r R eq_refl).
  Qed.
  Lemma copy_inv : exists D, inv D (copy_networks rir t0) /\ (forall r, In r (all D) <-> either t0 rir r).
  Proof.
    destruct (copy_family_inv _ _ 32 inv_start (fun _ => eq_refl)) as (D1 & V1 & N1 & A1).
    destruct (copy_family_inv D1 _ 128 V1) as (D2 & V2 & N2 & A2).
    { intro p. apply N1. discriminate. }
    exists D2. split; [exact V2|]. intro r. rewrite in_all. unfold either. fold (free t0 r). split; [tauto|].
    intros [H|[H F]]; [left; exact H|right]. split; [exact H|]. split; [exact F|].
    destruct (wf_r r H) as ([B|B] & _).
    - rewrite B, N2 by discriminate. apply A1; assumption.
    - rewrite B. apply A2; assumption.
  Qed.

  Lemma unique_decides : forall D t bits v r q, inv D t -> decides (fun x => In x t) bits v r -> decides (fun x => In x t) bits v q -> r = q.
  Proof.
    intros D t bits v r q V (R1 & R2 & R3 & R4) (Q1 & Q2 & Q3 & Q4).
    apply (inv_sub _ _ V) in R1 as R. apply (inv_sub _ _ V) in Q1 as Q.
    apply (all_keyed D); [exact R|exact Q|].
    apply (same_level _ _ v); try assumption; try (eapply all_wf; eassumption); [congruence|].
    apply N.le_antisymm; [apply Q4|apply R4]; assumption.
  Qed.
  Lemma copy_located : (forall r, In r rir -> r_country r <> None) -> forall bits v c,
    located (fun r => In r (copy_networks rir t0)) bits v c <-> located (either t0 rir) bits v c.
  Proof.
    intros named bits v c. destruct copy_inv as (D & V & A).
    assert (EQ : forall r, decides (either t0 rir) bits v r <-> decides (fun q => In q (all D)) bits v r).
    { intro r. unfold decides. rewrite A. split; intros (R1 & R2 & R3 & R4); (split; [exact R1|]); (split; [exact R2|]);
        (split; [exact R3|]); intros q Q; apply R4, A, Q. }
    split.
    - intros (r & R & C). pose proof R as (R1 & R2 & R3 & R4).
      destruct (decided (all D) bits v r (inv_sub _ _ V r R1) R2 R3) as (q & Q).
      destruct (inv_same _ _ V named _ _ _ Q) as (r' & R' & C').
      exists q. split; [apply EQ; exact Q|].
      rewrite <- C', (unique_decides D _ bits v r' r V R' R). exact C.
    - intros (r & R & C). apply EQ in R. destruct (inv_same _ _ V named _ _ _ R) as (r' & R' & C').
      exists r'. split; [exact R'|congruence].
  Qed.
  Lemma copy_rows : forall r, In r (copy_networks rir t0) -> either t0 rir r.
  Proof. destruct copy_inv as (D & V & A). intros r R. apply A, (inv_sub _ _ V), R. Qed.
  Lemma copy_old : forall r, In r t0 -> In r (copy_networks rir t0).
  Proof. destruct copy_inv as (D & V & A). apply (inv_old _ _ V). Qed.
  Lemma copy_more : forall r p, In r (copy_networks rir t0) -> ~ In r t0 ->
    (exists q, In q rir /\ p_bits (r_net q) = p_bits (r_net r) /\ p_len (r_net q) < p_len (r_net r)) ->
    around (fun q => In q (copy_networks rir t0)) (r_net r) p -> r_country p = None \/ r_country p <> r_country r.
  Proof.
    intros r p R NI (q & Q1 & Q2 & Q3) P. destruct copy_inv as (D & V & A).
    destruct (inv_new _ _ V r R) as [L|M].
    - apply (inv_sub _ _ V), in_all in R. destruct R as [R|(_ & F & _)]; [contradiction|exact F].
    - pose proof (L q Q1 Q2). lia.
    - exact (M p P).
  Qed.
End Copy.
