(** Compilation of a database: the claims *)
From Coq Require Import NArith ZArith List Bool Arith Lia ZifyBool ZifyNat ZifyN Permutation Sorted.
From Verif Require Import Base LemmasBase ModelAddress ModelCountryCode ModelStringPool LemmasStringPool ModelNetwork ModelTree ModelObjects
  SpecNetwork SpecStringPool SpecTree LemmasAddress LemmasNetwork LemmasSpecNetwork LemmasNetworkProps ModelDatabase ModelEnum SpecEnum SpecWriter
  LemmasDbProps PropsEnum PropsDatabase
  ModelImport SpecImport LemmasImportRange LemmasImportTable ModelCompile SpecCompile LemmasCompile LemmasCompileNet LemmasCompileDb.
Import ListNotations.
Open Scope N_scope.

(** ** Autonomous Systems *)
Definition named (r : N * cstr) : bool := match snd r with [] => false | _ => true end.
Lemma fold_app : forall a b c, fold_left means (a ++ b) c = fold_left means b (fold_left means a c).
Proof. intros. apply fold_left_app. Qed.
Lemma means_ases : forall rows id id' l c, write_ases id rows = Some (id', l) -> next_object c = id ->
  (forall a, In a (ases c) -> (as_no a < id)%nat) ->
  (forall a, In a (ases c) -> ~ In (the_number a) (map fst rows)) -> NoDup (map fst rows) ->
  exists new, fold_left means l c = mkContents (vendor c) (description c) (license c) (ases c ++ new) (countries c) id' /\ (id <= id')%nat /\
    map (fun a => (the_number a, the_name a)) new = map (fun r => (fst r, Some (snd r))) (filter named rows).
Proof.
  induction rows as [|[n s] rows IH]; cbn [write_ases]; intros id id' l c H NO A1 A2 ND.
  - assert (l = [] /\ id' = id) as [-> ->] by (split; congruence). exists []. split; [|split; [lia|reflexivity]].
    cbn. rewrite app_nil_r, <- NO. destruct c; reflexivity.
  - cbn [map fst] in A2, ND. inversion ND as [|? ? ND1 ND2]; subst.
    destruct s as [|x s].
    { apply (IH _ _ _ c H eq_refl A1); [|exact ND2]. intros a A B. apply (A2 a A). right. exact B. }
    destruct (2 ^ 31 <=? n); [discriminate|].
    destruct (write_ases (S (next_object c)) rows) as [[i q]|] eqn:E; [|discriminate].
    assert (l = AddAs n :: NameAs (next_object c) (Some (x :: s)) :: q /\ id' = i) as [-> ->] by (split; congruence). clear H.
    cbn [fold_left].
    set (c1 := means (means c (AddAs n)) (NameAs (next_object c) (Some (x :: s)))).
    assert (C1 : c1 = mkContents (vendor c) (description c) (license c) (ases c ++ [mkAnAs (next_object c) n (Some (x :: s))]) (countries c) (S (next_object c))).
    { unfold c1. cbn [means ases vendor description license countries next_object].
      replace (existsb (fun a => the_number a =? n) (ases c)) with false.
      - f_equal. rewrite map_app. cbn. rewrite Nat.eqb_refl. f_equal.
        rewrite <- (map_id (ases c)) at 2. apply map_ext_in. intros a A. apply A1 in A. replace (as_no a =? next_object c)%nat with false by lia. reflexivity.
      - symmetry. apply not_true_iff_false. intro X. apply existsb_exists in X. destruct X as (a & A & B). apply N.eqb_eq in B.
        apply (A2 a A). left. auto. }
    destruct (IH (S (next_object c)) i q c1 E) as (new & N1 & N2 & N3).
    + rewrite C1. reflexivity.
    + rewrite C1. cbn. intros a A. apply in_app_or in A. destruct A as [A|[<-|[]]]; [apply A1 in A; lia|cbn; lia].
    + rewrite C1. cbn. intros a A. apply in_app_or in A. destruct A as [A|[<-|[]]]; [intro B; apply (A2 a A); right; exact B|exact ND1].
    + exact ND2.
    + exists (mkAnAs (next_object c) n (Some (x :: s)) :: new). split; [|split; [lia|cbn; rewrite N3; reflexivity]].
      rewrite N1, C1. cbn. rewrite <- app_assoc. reflexivity.
Qed.
Lemma means_pairs : forall ps c, fold_left means (flat_map pair_calls ps) c = c.
Proof. induction ps as [|p ps IH]; intro c; [reflexivity|]. cbn. apply IH. Qed.
Lemma means_countries : forall rows id l c, write_countries id rows = Some l -> next_object c = id ->
  (forall a, In a (countries c) -> (country_no a < id)%nat) ->
  (forall a, In a (countries c) -> ~ In (the_code a) (map fst rows)) -> NoDup (map fst rows) ->
  exists new id', fold_left means l c = mkContents (vendor c) (description c) (license c) (ases c) (countries c ++ new) id' /\
    map (fun a => (the_code a, (the_continent a, the_country_name a))) new = map (fun r => (fst r, (Some (fst (snd r)), Some (snd (snd r))))) rows.
Proof.
  induction rows as [|[n [k s]] rows IH]; cbn [write_countries]; intros id l c H NO A1 A2 ND.
  - assert (l = []) by congruence. subst l. exists [], id. split; [|reflexivity].
    cbn. rewrite app_nil_r, <- NO. destruct c; reflexivity.
  - cbn [map fst] in A2, ND. inversion ND as [|? ? ND1 ND2]; subst.
    destruct (cc_is_valid (Some n)) eqn:V; cbn [negb] in H; [|discriminate].
    destruct (length k =? 2)%nat eqn:LK; cbn [negb] in H; [|discriminate].
    destruct (write_countries (S (next_object c)) rows) as [q|] eqn:E; [|discriminate].
    assert (l = AddCountry (Some n) :: SetContinent (next_object c) (Some k) :: NameCountry (next_object c) (Some s) :: q) by congruence. subst l. clear H.
    destruct (cc_valid_shape _ V) as (a1 & a2 & -> & R1 & R2 & R3). clear V.
    destruct k as [|k1 [|k2 [|]]]; try discriminate. clear LK.
    cbn [fold_left].
    set (c1 := means (means (means c (AddCountry (Some [a1; a2]))) (SetContinent (next_object c) (Some [k1; k2]))) (NameCountry (next_object c) (Some s))).
    assert (C1 : c1 = mkContents (vendor c) (description c) (license c) (ases c)
      (countries c ++ [mkACountry (next_object c) [a1; a2] (Some [k1; k2]) (Some s)]) (S (next_object c))).
    { unfold c1. cbn [means].
      replace (country_code (Some [a1; a2])) with (Some [a1; a2]).
      2:{ cbn. replace ((65 <=? a1) && (a1 <=? 90) && (65 <=? a2) && (a2 <=? 90) && negb (a1 =? 88)) with true by lia. reflexivity. }
      cbn [ases vendor description license countries next_object].
      replace (existsb (fun x => string_eqb (the_code x) [a1; a2]) (countries c)) with false.
      - f_equal. rewrite !map_app. cbn. rewrite Nat.eqb_refl. cbn. rewrite Nat.eqb_refl. f_equal.
        rewrite map_map. rewrite <- (map_id (countries c)) at 2. apply map_ext_in. intros a A. apply A1 in A.
        replace (country_no a =? next_object c)%nat with false by lia. replace (country_no a =? next_object c)%nat with false by lia. reflexivity.
      - symmetry. apply not_true_iff_false. intro X. apply existsb_exists in X. destruct X as (a & A & B). unfold string_eqb in B.
        destruct (list_eq_dec N.eq_dec (the_code a) [a1; a2]) as [Q|]; [|discriminate]. apply (A2 a A). left. auto. }
    destruct (IH (S (next_object c)) q c1 E) as (new & i & N1 & N3).
    + rewrite C1. reflexivity.
    + rewrite C1. cbn. intros a A. apply in_app_or in A. destruct A as [A|[<-|[]]]; [apply A1 in A; lia|cbn; lia].
    + rewrite C1. cbn. intros a A. apply in_app_or in A. destruct A as [A|[<-|[]]]; [intro B; apply (A2 a A); right; exact B|exact ND1].
    + exact ND2.
    + exists (mkACountry (next_object c) [a1; a2] (Some [k1; k2]) (Some s) :: new), i. split; [|cbn; rewrite N3; reflexivity].
      rewrite N1, C1. cbn. rewrite <- app_assoc. reflexivity.
Qed.

(** ** The rows of the two tables *)
Lemma by_number_in : forall A (l : list (N * A)) n a, NoDup (map fst l) -> In (n, a) l -> by_number l (Some n) = Some a.
Proof.
  induction l as [|[k b] l IH]; cbn; intros n a ND H; [destruct H|]. inversion ND as [|? ? N1 N2]; subst.
  destruct H as [H|H].
  - assert (k = n /\ b = a) as [-> ->] by (split; congruence). rewrite N.eqb_refl. reflexivity.
  - destruct (N.eqb_spec k n) as [->|NE]; [exfalso; apply N1; apply in_map_iff; exists (n, a); auto|]. exact (IH n a N2 H).
Qed.
Lemma by_number_none : forall A (l : list (N * A)) n, by_number l (Some n) = None <-> forall a, ~ In (n, a) l.
Proof.
  intros A l n. split.
  - intros H a I0. cbn in H. destruct (find (fun r => fst r =? n) l) eqn:E; [discriminate|].
    apply (find_none _ _ E) in I0. cbn in I0. rewrite N.eqb_refl in I0. discriminate.
  - intro H. pose proof (number_consult A l (Some n)) as C. destruct (by_number l (Some n)) as [a|]; [exfalso; exact (H a C)|reflexivity].
Qed.
Lemma as_rows_fst : forall t, Permutation (map fst (t_autnums t)) (map fst (as_rows t)).
Proof.
  intro t. unfold as_rows. eapply perm_trans; [|apply Permutation_map, order_by_perm]. rewrite map_map. apply Permutation_refl.
Qed.
Lemma as_rows_named : forall t n s, keys_ok t -> (In (n, s) (filter named (as_rows t)) <-> as_named t n s).
Proof.
  intros t n s (K1 & K2 & _). rewrite filter_In. unfold as_rows. rewrite order_by_in, in_map_iff. unfold as_named, named. cbn [snd]. split.
  - intros [([k x] & E & X) S0]. split; [intros ->; discriminate|]. cbn [fst snd] in E. exists x.
    assert (k = n) by congruence. subst k. split; [exact X|].
    assert (E' : s = match by_number (t_autnum_overrides t) (Some n) with Some (Some name, _) => name | _ => x end) by congruence. clear E.
    pose proof (number_consult _ (t_autnum_overrides t) (Some n)) as C.
    destruct (by_number (t_autnum_overrides t) (Some n)) as [[[y|] a]|] eqn:B.
    + left. exists a. subst y. exact C.
    + right. split; [exact E'|]. intros y b I0. rewrite (by_number_in _ _ _ _ K2 I0) in B. congruence.
    + right. split; [exact E'|]. intros y b I0. rewrite (by_number_in _ _ _ _ K2 I0) in B. congruence.
  - intros (NE & x & X & D). split; [|destruct s; [contradiction|reflexivity]].
    exists (n, x). split; [|exact X]. cbn [fst snd]. f_equal. destruct D as [[a D]|[-> D]].
    + rewrite (by_number_in _ _ _ _ K2 D). reflexivity.
    + pose proof (number_consult _ (t_autnum_overrides t) (Some n)) as C.
      destruct (by_number (t_autnum_overrides t) (Some n)) as [[[y|] a]|]; [exfalso; exact (D y a C)|reflexivity|reflexivity].
Qed.
Lemma country_rows_fst : forall t, Permutation (map fst (t_countries t)) (map fst (country_rows t)).
Proof. intro t. unfold country_rows. apply Permutation_map, order_by_perm. Qed.
Lemma str_before_trans : forall a b c, str_before a b = true -> str_before b c = true -> str_before a c = true.
Proof.
  induction a as [|x a IH]; intros [|y b] [|z c]; cbn; intros H1 H2; try discriminate; try reflexivity.
  apply orb_true_iff in H1. apply orb_true_iff in H2. apply orb_true_iff.
  destruct H1 as [H1|H1], H2 as [H2|H2].
  - left. lia.
  - apply andb_true_iff in H2. left. lia.
  - apply andb_true_iff in H1. left. lia.
  - apply andb_true_iff in H1. apply andb_true_iff in H2. right. apply andb_true_iff. split; [lia|]. apply (IH b c); tauto.
Qed.
Lemma str_before_total : forall a b, a <> b -> str_before a b = true \/ str_before b a = true.
Proof.
  induction a as [|x a IH]; intros [|y b] NE; cbn; auto.
  destruct (N.lt_trichotomy x y) as [L|[->|L]].
  - left. apply orb_true_iff. left. lia.
  - assert (NE' : a <> b) by congruence. destruct (IH b NE') as [Q|Q]; [left|right]; apply orb_true_iff; right; rewrite N.eqb_refl, Q; reflexivity.
  - right. apply orb_true_iff. left. lia.
Qed.
Lemma country_rows_sorted : forall t, NoDup (map fst (t_countries t)) ->
  StronglySorted (fun a b => str_before (fst a) (fst b) = true) (country_rows t).
Proof.
  intros t ND. unfold country_rows. apply (order_by_sorted _ (fun a b : cstr * (cstr * cstr) => str_before (fst a) (fst b))).
  - intros x y z _ _ _. apply str_before_trans.
  - induction (t_countries t) as [|x l IH]; [constructor|]. cbn in ND. inversion ND as [|? ? N1 N2]; subst.
    constructor; [|exact (IH N2)]. apply Forall_forall. intros y Y. apply str_before_total. intro E. apply N1. rewrite E. apply in_map, Y.
Qed.

(** ** The database *)
Lemma none_ases : forall rows id, write_ases id rows = None <-> exists n s, In (n, s) (filter named rows) /\ 2 ^ 31 <= n.
Proof.
  induction rows as [|[n s] rows IH]; intro id; cbn [write_ases].
  - split; [discriminate|]. intros (n & s & [] & _).
  - destruct s as [|x s]; [exact (IH id)|]. cbn [filter named snd].
    destruct (2 ^ 31 <=? n) eqn:L.
    + split; [|reflexivity]. intros _. exists n, (x :: s). split; [left; reflexivity|]. apply N.leb_le, L.
    + apply N.leb_gt in L. specialize (IH (S id)). destruct (write_ases (S id) rows) as [[i q]|].
      * split; [discriminate|]. intros (k & y & [E|I0] & B).
        -- assert (n = k) by congruence. subst k. exfalso. apply (N.lt_irrefl n). eapply N.lt_le_trans; eassumption.
        -- assert (X : exists n s, In (n, s) (filter named rows) /\ 2 ^ 31 <= n) by (exists k, y; auto). apply IH in X. discriminate.
      * split; [|reflexivity]. intros _. destruct (proj1 IH eq_refl) as (k & y & I0 & B). exists k, y. split; [right; exact I0|exact B].
Qed.
Lemma large_as : forall vendor description license t n s, keys_ok t -> as_named t n s -> 2 ^ 31 <= n ->
  handle_write vendor description license t = None.
Proof.
  intros vd de li t n s K A L. unfold handle_write. replace (write_ases 0 (as_rows t)) with (@None (nat * list call)); [reflexivity|].
  symmetry. apply none_ases. exists n, s. split; [apply as_rows_named; assumption|exact L].
Qed.
Lemma best_self : forall t n a, tables_wf t -> NoDup (map fst (t_announcements t)) -> In (n, a) (t_announcements t) ->
  best fst (t_announcements t) n = Some (n, a).
Proof.
  intros t n a W ND H.
  assert (Kan : forall r, In r (t_announcements t) -> known t (fst r)) by (intros [m b] I0; left; exists b; exact I0).
  assert (Wn : net_wf n) by (apply W, (Kan _ H)).
  assert (C : contains n n = true) by (apply contains_spec; auto; split; [reflexivity|split; [lia|auto]]).
  destruct (best fst (t_announcements t) n) as [[m b]|] eqn:E.
  - destruct (best_some _ _ _ _ _ E) as (B1 & B2 & B3). cbn [fst] in *.
    pose proof (B3 _ H C) as L. cbn [fst] in L. assert (Wm : net_wf m) by (apply W, (Kan _ B1)).
    apply contains_spec in B2; auto. destruct B2 as (B & L2 & Q).
    assert (Hn : holds n (p_base n)) by (unfold holds; pose proof (size_pos n); lia).
    assert (m = n) by (apply (same_level m n (p_base n)); auto; lia). subst m. f_equal. f_equal.
    assert (X : forall l : list (pnet * N), NoDup (map fst l) -> In (n, a) l -> In (n, b) l -> b = a).
    { clear. induction l as [|x l IH]; cbn; intros ND H1 H2; [destruct H1|]. inversion ND as [|? ? N1 N2]; subst.
      destruct H1 as [->|H1], H2 as [H2|H2].
      - congruence.
      - exfalso. apply N1, in_map_iff. exists (n, b). auto.
      - subst x. exfalso. apply N1, in_map_iff. exists (n, a). auto.
      - exact (IH N2 H1 H2). }
    exact (X _ ND H B1).
  - pose proof (best_none _ _ _ _ E _ H) as X. cbn [fst] in X. congruence.
Qed.
Lemma large_announcement : forall vendor description license t n a, tables_wf t -> NoDup (map fst (t_announcements t)) ->
  In (n, a) (t_announcements t) -> 2 ^ 31 <= a -> handle_write vendor description license t = None.
Proof.
  intros vd de li t n a W ND H L. unfold handle_write. destruct (write_ases 0 (as_rows t)) as [[id l]|]; [|reflexivity].
  replace (write_networks t) with (@None (list call)); [reflexivity|]. symmetry. unfold write_networks.
  replace (compile_rows t) with (@None (list nrow)); [reflexivity|]. symmetry. unfold compile_rows.
  replace (collect (compile_row t) (all_networks t)) with (@None (list nrow)); [reflexivity|]. symmetry.
  apply collect_none. exists n. split; [apply all_networks_known; left; exists a; exact H|].
  unfold compile_row, step_autnum. cbn [n_net]. rewrite (best_self t n a W ND H).
  replace (2 ^ 31 <=? a) with true; [reflexivity|]. symmetry. apply N.leb_le, L.
Qed.

Section Done.
  Variables vendor description license : option cstr.
  Variable t : tables.
  Variable os : list call.
  Hypothesis wf : tables_wf t.
  Hypothesis done : handle_write vendor description license t = Some os.

  Lemma done_meaning : keys_ok t ->
    map (fun a => (the_number a, the_name a)) (ases (meaning os)) = map (fun r => (fst r, Some (snd r))) (filter named (as_rows t)) /\
    map (fun a => (the_code a, (the_continent a, the_country_name a))) (countries (meaning os)) =
      map (fun r => (fst r, (Some (fst (snd r)), Some (snd (snd r))))) (country_rows t).
  Proof.
    intros (K1 & _ & K3). destruct (handle_parts _ _ _ _ _ done) as (id & a & n & c & A & N1 & C & E).
    destruct (written_pairs t n wf N1) as (rows & ps & _ & L & _). unfold meaning. rewrite E, fold_app.
    set (c0 := fold_left means (when vendor SetVendor ++ when description SetDescription ++ when license SetLicense) nothing).
    rewrite !fold_app.
    assert (C0 : ases c0 = [] /\ countries c0 = [] /\ next_object c0 = 0%nat).
    { unfold c0, when. destruct (truthy vendor), (truthy description), (truthy license), vendor, description, license; cbn; auto. }
    destruct C0 as (C1 & C2 & C3).
    destruct (means_ases _ _ _ _ c0 A C3) as (new & M1 & M2 & M3).
    - rewrite C1. intros x [].
    - rewrite C1. intros x [].
    - apply (Permutation_NoDup (as_rows_fst t)), K1.
    - rewrite M1, L, means_pairs. match goal with |- context [fold_left means c ?k] => set (c1 := k) end.
      destruct (means_countries _ _ _ c1 C eq_refl) as (newc & id' & Q1 & Q2).
      + cbn. rewrite C2. intros x [].
      + cbn. rewrite C2. intros x [].
      + apply (Permutation_NoDup (country_rows_fst t)), K3.
      + rewrite Q1. cbn. rewrite C1, C2. cbn. auto.
  Qed.
  Lemma done_in_order : keys_ok t -> countries_in_order (meaning os).
  Proof.
    intro K. destruct (done_meaning K) as [_ M]. destruct K as (_ & _ & K). pose proof (country_rows_sorted t K) as S0. unfold countries_in_order.
    assert (V : forall r, In r (country_rows t) -> cc_is_valid (Some (fst r)) = true).
    { destruct (handle_parts _ _ _ _ _ done) as (id & a & n & c & _ & _ & C & _). clear - C. revert id c C.
      induction (country_rows t) as [|[x [k s]] l IH]; intros id c C r R; [destruct R|]. cbn [write_countries] in C.
      destruct (cc_is_valid (Some x)) eqn:V; cbn [negb] in C; [|discriminate]. destruct (length k =? 2)%nat; cbn [negb] in C; [|discriminate].
      destruct (write_countries (S id) l) as [q|] eqn:Q; [|discriminate]. destruct R as [<-|R]; [exact V|exact (IH _ _ Q r R)]. }
    revert S0 V M. generalize (countries (meaning os)). generalize (country_rows t). clear.
    induction l as [|r l IH]; intros [|x cs] S0 V M; cbn in M; try discriminate; [constructor|].
    apply StronglySorted_inv in S0. destruct S0 as [S1 S2]. 
    assert (M1 : the_code x = fst r) by congruence. assert (M2 : map (fun a => (the_code a, (the_continent a, the_country_name a))) cs = map (fun r => (fst r, (Some (fst (snd r)), Some (snd (snd r))))) l) by congruence.
    constructor; [apply IH; auto; intros q Q; apply V; right; exact Q|].
    apply Forall_forall. intros y Y.
    assert (Y' : In (the_code y, (the_continent y, the_country_name y)) (map (fun a => (the_code a, (the_continent a, the_country_name a))) cs)) by (apply in_map_iff; eauto).
    rewrite M2 in Y'. apply in_map_iff in Y'. destruct Y' as (q & Q1 & Q2).
    assert (Q3 : the_code y = fst q) by congruence. rewrite M1, Q3.
    rewrite Forall_forall in S2. pose proof (S2 q Q2) as B.
    destruct (cc_valid_shape _ (V r (or_introl eq_refl))) as (r1 & r2 & R & _). destruct (cc_valid_shape _ (V q (or_intror Q2))) as (q1 & q2 & Q & _).
    rewrite R, Q in *. cbn in B |- *. apply orb_true_iff in B. destruct B as [B|B]; [left; lia|].
    apply andb_true_iff in B. destruct B as [B1 B2]. apply orb_true_iff in B2. destruct B2 as [B2|B2]; [right; lia|].
    apply andb_true_iff in B2. destruct B2. discriminate.
  Qed.
  Lemma done_calls : texts_ok t -> keys_ok t -> opt_cstr vendor -> opt_cstr description -> opt_cstr license -> Forall call_ok os.
  Proof.
    intros (T1 & T2 & T3) K O1 O2 O3. destruct (handle_parts _ _ _ _ _ done) as (id & a & n & c & A & N1 & C & E).
    destruct (written_pairs t n wf N1) as (rows & ps & R & L & M).
    rewrite E, !Forall_app. split; [|split; [|split]].
    - unfold when. repeat split; [destruct (truthy vendor)|destruct (truthy description)|destruct (truthy license)]; repeat constructor; assumption.
    - assert (X : forall n s, In (n, s) (filter named (as_rows t)) -> is_cstr s).
      { intros k s I0. apply as_rows_named in I0; [|exact K]. destruct I0 as (_ & x & X & [[b B]|[-> _]]); [exact (T2 _ _ _ B)|exact (T1 _ _ X)]. }
      clear - A X. revert id a A X. generalize 0%nat. induction (as_rows t) as [|[k s] l IH]; intros i id a A X; cbn [write_ases] in A.
      + assert (a = []) by congruence. subst. constructor.
      + destruct s as [|y s]; [exact (IH _ _ _ A X)|]. cbn [filter named snd] in X.
        destruct (2 ^ 31 <=? k) eqn:LE; [discriminate|]. apply N.leb_gt in LE.
        destruct (write_ases (S i) l) as [[i' q]|] eqn:Q; [|discriminate].
        assert (a = AddAs k :: NameAs i (Some (y :: s)) :: q) by congruence. subst a.
        constructor; [cbn; apply N.lt_trans with (2 ^ 31); [exact LE|reflexivity]|].
        constructor; [exact (X k _ (or_introl eq_refl))|]. apply (IH _ _ _ Q). intros n s0 I0. apply (X n). right. exact I0.
    - rewrite L. apply Forall_forall. intros o O. apply in_flat_map in O. destruct O as (p & P & O).
      destruct (forall2_in_r _ _ _ _ _ _ M P) as (r & Rr & (M1 & M2 & _)).
      assert (W : net_wf (n_net r)) by (apply wf, (rows_known t rows R r Rr)).
      destruct (new_of_pnet _ _ W M1) as (V & _). destruct O as [<-|[<-|[]]]; [exact V|split; [exact V|exact M2]].
    - assert (X : forall c k s, In (c, (k, s)) (country_rows t) -> is_cstr k /\ is_cstr s).
      { intros x k s I0. unfold country_rows in I0. apply order_by_in in I0. exact (T3 _ _ _ I0). }
      clear - C X. revert id c C X. induction (country_rows t) as [|[x [k s]] l IH]; intros id c C X; cbn [write_countries] in C.
      + assert (c = []) by congruence. subst. constructor.
      + destruct (cc_is_valid (Some x)); cbn [negb] in C; [|discriminate]. destruct (length k =? 2)%nat; cbn [negb] in C; [|discriminate].
        destruct (write_countries (S id) l) as [q|] eqn:Q; [|discriminate].
        assert (c = AddCountry (Some x) :: SetContinent id (Some k) :: NameCountry id (Some s) :: q) by congruence. subst c.
        destruct (X x k s (or_introl eq_refl)) as [X1 X2].
        constructor; [exact Logic.I|]. constructor; [exact X1|]. constructor; [exact X2|].
        apply (IH _ _ Q). intros c0 k0 s0 I0. apply (X c0). right. exact I0.
  Qed.
End Done.

Section Database.
  Variables vendor description license : option cstr.
  Variable t : tables.
  Variable os : list call.
  Variables (ctz0 : nat) (held : network -> bool) (key1 key2 : option ModelWriter.evp).
  Variables (w : ModelWriter.writer) (x : save) (w' : ModelWriter.writer) (f : list N) (d : db).
  Hypothesis wf : tables_wf t.
  Hypothesis texts : texts_ok t.
  Hypothesis keys : keys_ok t.
  Hypothesis ov : opt_cstr vendor.
  Hypothesis od : opt_cstr description.
  Hypothesis ol : opt_cstr license.
  Hypothesis done : handle_write vendor description license t = Some os.
  Hypothesis prog : program ctz0 held key1 key2 os = Ok w.
  Hypothesis wrote : write_to ctz0 held key1 key2 w x = Ok (0%Z, w', f).
  Hypothesis small : N.of_nat (length f) < 2 ^ 32.
  Hypothesis now_ok : s_now x < 2 ^ 64.
  Hypothesis opened : db_open f = Ok d.

  Lemma added_networks :
    (forall n, known t n -> exists z, In z (given os) /\ num (n_first z) = mapped (p_bits n) (p_base n) /\ num (n_last z) + 1 = mapped (p_bits n) (p_base n) + size_of n) /\
    (forall z, In z (given os) -> exists n, known t n /\ num (n_first z) = mapped (p_bits n) (p_base n) /\ num (n_last z) + 1 = mapped (p_bits n) (p_base n) + size_of n).
  Proof.
    clear - wf done.
    destruct (given_rows _ _ _ _ _ wf done) as (rows & ps & R & M & G).
    assert (Q : forall r p, In r rows -> makes r (fst p) (snd p) -> num (n_first (with_attributes (fst p) (snd p))) = mapped (p_bits (n_net r)) (p_base (n_net r)) /\
      num (n_last (with_attributes (fst p) (snd p))) + 1 = mapped (p_bits (n_net r)) (p_base (n_net r)) + size_of (n_net r)).
    { intros r [n [[c s] fl]] Rr (M1 & _). assert (W : net_wf (n_net r)) by (apply wf, (rows_known t rows R r Rr)).
      destruct (new_of_pnet _ _ W M1) as (_ & F & _ & L & _). split; [exact F|exact L]. }
    split.
    - intros n K. destruct (known_row t rows R n K) as (r & Rr & <-). destruct (forall2_in_l _ _ _ _ _ _ M Rr) as (p & P & M').
      exists (with_attributes (fst p) (snd p)). split; [apply G; eauto|]. apply Q; assumption.
    - intros z Z. apply G in Z. destruct Z as (p & P & ->). destruct (forall2_in_r _ _ _ _ _ _ M P) as (r & Rr & M').
      exists (n_net r). split; [exact (rows_known t rows R r Rr)|]. apply Q; assumption.
  Qed.
  Lemma database_networks : (forall n, known t n -> usual n) ->
    forall beyond fuel old, (3 * N.to_nat (snd (d_tree d)) + 1 <= fuel)%nat ->
    exists Ns, SpecNetworkList.ascending Ns /\
    (forall l, Forall setting_ok l -> exists L, enumerates (next_network beyond d fuel old) (configured Networks false l) L /\
       SpecNetworkList.ascending L /\ forall n, In n L <-> In n Ns /\ wanted l n) /\
    forall bits v, fits bits v ->
      ((exists z, most_specific Ns (mapped bits v) z) <-> exists n, known t n /\ p_bits n = bits /\ holds n v) /\
      (forall z, most_specific Ns (mapped bits v) z -> exists asn a, expected t bits v asn a /\
         get_country_code z = code_of (a_country a) /\ n_asn z = number_of asn /\ n_flags z = flags_of a).
  Proof.
    intros U beyond fuel old FU. pose proof (done_calls _ _ _ _ _ wf done texts keys ov od ol) as OK.
    destruct (given_rows _ _ _ _ _ wf done) as (rows & ps & R & M & G).
    destruct (C31_meaning_partial ctz0 held key1 key2 os w x w' f d OK prog wrote small now_ok opened (no_saves _ _ _ _ _ wf done)
      beyond fuel old FU (usual_enumerable t rows ps (given os) wf R M G U)) as (Ns & A & E & X).
    exists Ns. split; [exact A|]. split; [exact E|]. intros bits v F.
    assert (VB : mapped bits v < 2 ^ 128).
    { destruct F as [[-> F]|(-> & F & _)]; unfold mapped; cbn [N.eqb Pos.eqb]; [|exact F].
      apply N.lt_trans with (65535 * 2 ^ 32 + 2 ^ 32); [lia|reflexivity]. }
    destruct (address_expected t rows bits v wf R) as [AE1 AE2].
    pose proof (fun z => specific_nearest t rows ps (given os) wf R M G U bits v z F) as SN. split.
    - rewrite <- AE1. split.
      + intros (z & Z). destruct (proj1 (X _ _ _ _ VB) (ex_intro _ z (conj Z (conj eq_refl (conj eq_refl eq_refl))))) as (y & Y & _).
        apply SN in Y. destruct Y as (r & p & Y & _). exists r. exact Y.
      + intros (r & Rr). destruct (forall2_in_l _ _ _ _ _ _ M (proj1 (proj1 Rr))) as (p & P & M').
        assert (Y : most_specific (given os) (mapped bits v) (with_attributes (fst p) (snd p))) by (apply SN; exists r, p; auto).
        destruct (proj2 (X _ _ _ _ VB) (ex_intro _ _ (conj Y (conj eq_refl (conj eq_refl eq_refl))))) as (z & Z & _). exists z. exact Z.
    - intros z Z. destruct (proj1 (X _ _ _ _ VB) (ex_intro _ z (conj Z (conj eq_refl (conj eq_refl eq_refl))))) as (y & Y & Y1 & Y2 & Y3).
      apply SN in Y. destruct Y as (r & p & Rr & P & M' & ->). exists (n_autnum r), (n_at r). split; [apply AE2, Rr|].
      assert (W : net_wf (n_net r)) by (apply wf, (rows_known t rows R r (proj1 (proj1 Rr)))).
      destruct (row_net ps (given os) G r _ _ W M') as ((S1 & S2 & S3) & _). rewrite S1 in Y1. rewrite S2 in Y2. rewrite S3 in Y3.
      split; [auto|]. split; [auto|]. rewrite <- Y3. unfold flags_of, flag_of.
      destruct (a_proxy (n_at r)) as [[]|], (a_satellite (n_at r)) as [[]|], (a_anycast (n_at r)) as [[]|], (a_drop (n_at r)) as [[]|]; reflexivity.
  Qed.
  Lemma database_ases :
    (forall n s, as_named t n s -> exists r, get_as d n = Ok r /\ as_number r = n /\ as_name r = Some s) /\
    (forall n, (forall s, ~ as_named t n s) -> get_as d n = Err 1).
  Proof.
    pose proof (done_calls _ _ _ _ _ wf done texts keys ov od ol) as OK. destruct (done_meaning _ _ _ _ _ wf done keys) as [M _].
    destruct (C23_get_as ctz0 held key1 key2 os w x w' f d OK prog wrote small now_ok opened) as [G1 G2].
    assert (Q : forall n s, In (n, Some s) (map (fun a => (the_number a, the_name a)) (ases (meaning os))) <-> as_named t n s).
    { intros n s. rewrite M, <- as_rows_named by exact keys. rewrite in_map_iff. split.
      - intros ([k y] & E & I0). cbn in E. assert (k = n /\ y = s) as [-> ->] by (split; congruence). exact I0.
      - intro I0. exists (n, s). auto. }
    split.
    - intros n s A. apply Q in A. apply in_map_iff in A. destruct A as (a & E & A). destruct (G1 a A) as (r & R1 & R2 & R3).
      assert (E1 : the_number a = n) by congruence. assert (E2 : the_name a = Some s) by congruence. rewrite E1, E2 in *. eauto.
    - intros n A. apply G2. intro I0. apply in_map_iff in I0. destruct I0 as (a & <- & I0).
      assert (X : In (the_number a, the_name a) (map (fun r => (fst r, Some (snd r))) (filter named (as_rows t)))).
      { rewrite <- M. apply in_map_iff. eauto. }
      apply in_map_iff in X. destruct X as ([k s] & E & X). cbn in E. apply (A s). apply as_rows_named; [exact keys|].
      assert (k = the_number a) by congruence. subst k. exact X.
  Qed.
  Lemma codes_valid : forall c k s, In (c, (k, s)) (t_countries t) -> exists z, In z (countries (meaning os)) /\ the_code z = c /\ the_continent z = Some k /\ the_country_name z = Some s.
  Proof.
    clear - wf done keys.
    intros c k s H. destruct (done_meaning _ _ _ _ _ wf done keys) as [_ M].
    assert (X : In (c, (Some k, Some s)) (map (fun a => (the_code a, (the_continent a, the_country_name a))) (countries (meaning os)))).
    { rewrite M. apply in_map_iff. exists (c, (k, s)). split; [reflexivity|]. unfold country_rows. apply order_by_in. exact H. }
    apply in_map_iff in X. destruct X as (z & E & Z). exists z. split; [exact Z|]. repeat split; congruence.
  Qed.
  Lemma database_countries :
    (forall c k s, In (c, (k, s)) (t_countries t) ->
       (exists y, get_country d (Some c) = Ok (Some y) /\ cc_str (c_code y) = c /\ country_get_name y = Ok (Some s)) /\
       (exists i y, fetch_country d i = Ok y /\ i < N.of_nat (length (t_countries t)) /\
          cc_str (c_code y) = c /\ country_get_continent_code y = Some k /\ country_get_name y = Ok (Some s))) /\
    (forall c, country_code (Some c) <> None -> ~ In c (map fst (t_countries t)) -> get_country d (Some c) = Ok None) /\
    snd (d_countries d) = N.of_nat (length (t_countries t)).
  Proof.
    pose proof (done_calls _ _ _ _ _ wf done texts keys ov od ol) as OK. destruct (done_meaning _ _ _ _ _ wf done keys) as [_ M].
    pose proof (done_in_order _ _ _ _ _ wf done keys) as IO.
    destruct (C25_get_country_partial ctz0 held key1 key2 os w x w' f d OK prog wrote small now_ok opened IO) as (G1 & G2 & _).
    pose proof (C26_complete_partial ctz0 held key1 key2 os w x w' f d OK prog wrote small now_ok opened) as G3.
    destruct (C26_countries_partial ctz0 held key1 key2 os w x w' f d OK prog wrote small now_ok opened) as [G4 _].
    assert (LN : length (countries (meaning os)) = length (t_countries t)).
    { apply (f_equal (@length _)) in M. rewrite !map_length in M. rewrite M.
      apply Permutation_length, Permutation_sym. unfold country_rows. apply order_by_perm. }
    split; [|split; [|rewrite G4, LN; reflexivity]].
    - intros c k s H. destruct (codes_valid c k s H) as (z & Z & Z1 & Z2 & Z3). split.
      + destruct (G1 z Z) as (y & Y1 & Y2 & Y3). rewrite Z1 in *. rewrite Z3 in Y3. eauto.
      + apply In_nth_error in Z as Z'. destruct Z' as (i & I0).
        destruct (G3 i z I0) as (y & Y1 & Y2 & Y3 & Y4); [congruence|congruence|].
        exists (N.of_nat i), y. split; [exact Y1|]. split.
        * assert (i < length (countries (meaning os)))%nat by (apply nth_error_Some; rewrite I0; discriminate). lia.
        * split; [congruence|]. split; [congruence|]. congruence.
    - intros c V NI. apply G2; [exact V|]. intro I0. apply NI. apply in_map_iff in I0. destruct I0 as (z & <- & Z).
      assert (X : In (the_code z, (the_continent z, the_country_name z)) (map (fun r => (fst r, (Some (fst (snd r)), Some (snd (snd r))))) (country_rows t))).
      { rewrite <- M. apply in_map_iff. eauto. }
      apply in_map_iff in X. destruct X as (r & E & X). unfold country_rows in X. apply order_by_in in X.
      replace (the_code z) with (fst r) by congruence. apply in_map, X.
  Qed.
End Database.
Lemma invalid_country : forall vendor description license t c k s, In (c, (k, s)) (t_countries t) -> country_code (Some c) = None ->
  handle_write vendor description license t = None.
Proof.
  intros vd de li t c k s H V. unfold handle_write. destruct (write_ases 0 (as_rows t)) as [[id l]|]; [|reflexivity].
  destruct (write_networks t) as [n|]; [|reflexivity].
  replace (write_countries id (country_rows t)) with (@None (list call)); [reflexivity|]. symmetry.
  assert (I0 : In (c, (k, s)) (country_rows t)) by (unfold country_rows; apply order_by_in; exact H). clear - I0 V.
  assert (NV : cc_is_valid (Some c) = false).
  { destruct (cc_is_valid (Some c)) eqn:E; [|reflexivity]. destruct (cc_valid_shape _ E) as (a & b & -> & A & B & X). cbn in V.
    replace ((65 <=? a) && (a <=? 90) && (65 <=? b) && (b <=? 90) && negb (a =? 88)) with true in V by lia. discriminate. }
  revert id. induction (country_rows t) as [|[x [y z]] l IH]; intro id; [destruct I0|]. cbn [write_countries].
  destruct I0 as [E|I0].
  - assert (x = c) by congruence. subst x. rewrite NV. reflexivity.
  - rewrite (IH I0). destruct (negb (cc_is_valid (Some x))); [reflexivity|]. destruct (negb _); reflexivity.
Qed.
