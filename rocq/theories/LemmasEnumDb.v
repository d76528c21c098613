(** Enumerating the networks of a written database *)
From Coq Require Import NArith ZArith List Bool Arith Lia ZifyBool ZifyNat ZifyN Sorting.Sorted.
From Verif Require Import Base LemmasBase ModelAddress LemmasAddress ModelCountryCode ModelNetwork LemmasNetwork ModelNetworkList
  ModelTree LemmasPath LemmasTree LemmasMergeTree LemmasTreeProps LemmasSpecNetwork ModelStringPool ModelObjects
  ModelFile ModelWriter ModelDatabase SpecNetwork SpecStringPool SpecObjects SpecNetworkList SpecTree SpecWriter LemmasObjects
  LemmasFile LemmasWriter LemmasWrite LemmasOpen LemmasDb LemmasDbProps LemmasNodes LemmasLookup LemmasLookupDb LemmasTwice
  ModelEnum SpecEnum LemmasEnumAs LemmasEnum LemmasEnumTree.
Import ListNotations.
Open Scope N_scope.
Local Opaque cleanup.

(** ** the filters *)
Lemma configured_filters m fl l : let e := configured m fl l in
  option_map (fun c => map (fun x => cc_str (c_code x)) (ol_elems c)) (en_countries e) = the_countries l /\
  option_map (fun c => map as_number (ol_elems c)) (en_asns e) = the_asns l /\
  en_flags e = the_flags l /\ en_family e = the_family l /\
  (Forall setting_ok l -> match en_countries e with Some c => setting_ok (SetCountries c) | None => True end).
Proof.
  induction l as [|s l IH] using rev_ind; [cbn; auto|]. cbv zeta in *. rewrite configured_snoc.
  destruct IH as (I1 & I2 & I3 & I4 & I5). unfold the_countries, the_asns, the_flags, the_family in *. rewrite !fold_left_app.
  cbn [fold_left]. assert (X : Forall setting_ok (l ++ [s]) -> Forall setting_ok l /\ setting_ok s).
  { intros F. apply Forall_app in F as [F1 F2]. now inversion F2. }
  destruct s; cbn [set_one enum_set_string enum_set_countries enum_set_asns enum_set_flag enum_set_family en_countries en_asns en_flags en_family];
    (split; [exact I1 || reflexivity|]; split; [exact I2 || reflexivity|]; split; [exact I3 || now rewrite I3|]; split; [exact I4 || reflexivity|]);
    intros F; apply X in F as [F1 F2]; try (apply I5; exact F1). exact F2.
Qed.

Lemma has_country c n : setting_ok (SetCountries c) -> cc_ok (n_cc n) ->
  country_list_contains_code c (Some (get_country_code n)) =
    Ok (existsb (fun x => if list_eq_dec N.eq_dec (cc_str (c_code x)) (get_country_code n) then negb (fst (n_cc n) =? 0) else false) (ol_elems c)).
Proof.
  intros F C. unfold country_list_contains_code, get_country_code. destruct (n_cc n) as [a b]. destruct C as [[C _]|C]; cbn [fst snd] in *.
  - subst a. cbn [cc_str N.eqb]. unfold country_new. cbn [cc_is_valid negb]. f_equal. symmetry. apply not_true_iff_false. intros X.
    apply existsb_exists in X as (x & _ & X). destruct (list_eq_dec _ _ _); discriminate.
  - pose proof (cc_valid_nz _ _ C) as [A B]. replace (cc_str (a, b)) with [a; b].
    2:{ unfold cc_str. replace (a =? 0) with false by lia. now replace (b =? 0) with false by lia. }
    destruct (country_new_spec 0 [a; b] C) as (k & -> & Ok1 & Ek & _). f_equal. unfold olist_contains.
    cbn [setting_ok] in F. induction F as [|y l Fy F IH]; [reflexivity|]. cbn [existsb]. rewrite IH. f_equal.
    assert (Oy : country_ok y) by (unfold country_ok, two_letters; clear -Fy; lia).
    rewrite country_cmp_key by auto. replace (a =? 0) with false by lia. cbn [negb].
    destruct (list_eq_dec N.eq_dec (cc_str (c_code y)) [a; b]) as [E|E].
    + assert (country_key k = country_key y) as ->.
      { unfold country_key. f_equal. clear -E Ek Ok1 Oy. unfold country_ok, two_letters in *. destruct (c_code k) as [k1 k2], (c_code y) as [y1 y2].
        cbn [fst snd] in *. unfold cc_str in *. replace (k1 =? 0) with false in Ek by lia. replace (k2 =? 0) with false in Ek by lia.
        replace (y1 =? 0) with false in E by lia. replace (y2 =? 0) with false in E by lia. congruence. }
      rewrite N.compare_refl. reflexivity.
    + unfold three. destruct (N.compare_spec (country_key k) (country_key y)) as [Q|Q|Q]; auto. exfalso. apply E. rewrite <- Ek.
      f_equal. symmetry. apply code_number_inj; auto.
Qed.

Lemma has_asn c n : as_list_contains_number c n = existsb (N.eqb n) (map as_number (ol_elems c)).
Proof.
  unfold as_list_contains_number, olist_contains. induction (ol_elems c) as [|y l IH]; [reflexivity|]. cbn [existsb map]. rewrite IH. f_equal.
  rewrite as_cmp_key by auto. cbn [as_new as_number]. unfold three. destruct (N.compare_spec n (as_number y)); lia.
Qed.

Lemma cc_str_empty n : cc_ok (n_cc n) -> get_country_code n <> [] <-> fst (n_cc n) <> 0.
Proof.
  intros C. unfold get_country_code, cc_str. destruct (n_cc n) as [a b]. cbn [fst]. destruct (N.eqb_spec a 0); [tauto|].
  split; auto. destruct (b =? 0); discriminate.
Qed.

Lemma match_wanted md fl l n : Forall setting_ok l -> cc_ok (n_cc n) -> exists b,
  match_network (configured md fl l) n = Ok b /\ (b = true <-> wanted l n).
Proof.
  intros F C. destruct (configured_filters md fl l) as (E1 & E2 & E3 & E4 & E5). specialize (E5 F). cbv zeta in *.
  unfold match_network, wanted. rewrite <- E1, <- E2, E3, E4. unfold has_flag.
  assert (Fam : negb (the_family l =? 0)%Z && negb (family_number (n_family n) =? the_family l)%Z = false <->
    (the_family l = 0%Z \/ the_family l = match n_family n with AF_INET => 2%Z | AF_INET6 => 10%Z end)).
  { unfold family_number. destruct (n_family n); lia. }
  destruct (negb (the_family l =? 0)%Z && _).
  { exists false. split; auto. split; [discriminate|]. intros [X _]. apply Fam in X. discriminate. }
  assert (G : forall P Q : Prop, (P <-> Q) -> (P <-> (the_family l = 0%Z \/ the_family l = match n_family n with AF_INET => 2%Z | AF_INET6 => 10%Z end) /\ Q)) by tauto.
  destruct (en_countries (configured md fl l)) as [c|] eqn:Ec; cbn [option_map].
  - set (as_ok := match en_asns _ with Some _ => _ | None => _ end).
    assert (As : as_ok = true <-> exists a, option_map (fun c0 => map as_number (ol_elems c0)) (en_asns (configured md fl l)) = Some a /\ In (n_asn n) a).
    { unfold as_ok. destruct (en_asns (configured md fl l)) as [al|]; cbn [option_map].
      - rewrite has_asn, andb_true_iff, existsb_exists. unfold olist_size. split.
        + intros (_ & z & Iz & Ez). exists (map as_number (ol_elems al)). split; auto. apply N.eqb_eq in Ez. now subst.
        + intros (a & [= <-] & I). split.
          * destruct (ol_elems al); [destruct I|reflexivity].
          * exists (n_asn n). split; auto. apply N.eqb_refl.
      - split; [discriminate|]. intros (a & X & _). discriminate. }
    set (cb := existsb (fun x => if list_eq_dec N.eq_dec (cc_str (c_code x)) (get_country_code n) then negb (fst (n_cc n) =? 0) else false) (ol_elems c)).
    assert (Co : (if (olist_size c =? 0)%nat then Ok false else country_list_contains_code c (Some (get_country_code n))) = Ok cb).
    { rewrite (has_country c n E5 C). fold cb. destruct (Nat.eqb_spec (olist_size c) 0) as [Z|]; auto. unfold cb, olist_size in *.
      destruct (ol_elems c); [reflexivity|discriminate]. }
    assert (Cb : cb = true <-> (exists c0, Some (map (fun x => cc_str (c_code x)) (ol_elems c)) = Some c0 /\ get_country_code n <> [] /\ In (get_country_code n) c0)).
    { unfold cb. rewrite existsb_exists. pose proof (cc_str_empty n C) as Em. split.
      - intros (x & I & X). destruct (list_eq_dec _ _ _) as [Q|]; [|discriminate]. eexists. split; [reflexivity|]. split; [apply Em; lia|]. rewrite <- Q.
        now apply in_map with (f := fun x => cc_str (c_code x)).
      - intros (c0 & [= <-] & Nz & I). apply Em in Nz. apply in_map_iff in I as (x & Q & I). exists x. split; auto. destruct (list_eq_dec _ _ _); [lia|congruence]. }
    rewrite Co. cbn [bind]. exists (cb || as_ok || (negb (the_flags l =? 0) && negb (N.land (n_flags n) (the_flags l) =? 0))). split.
    { destruct cb, as_ok; try reflexivity. cbn [orb]. now destruct (_ && _). }
    apply G. rewrite !orb_true_iff, Cb, As, andb_true_iff. assert (Z : N.land (n_flags n) 0 = 0) by apply N.land_0_r.
    assert (Fl : negb (the_flags l =? 0) = true /\ negb (N.land (n_flags n) (the_flags l) =? 0) = true <-> N.land (n_flags n) (the_flags l) <> 0).
    { destruct (N.eqb_spec (the_flags l) 0) as [Q|Q]; [rewrite Q, Z|]; cbn [negb]; lia. }
    rewrite Fl. split; [tauto|]. intros [(X & _)|[X|[X|X]]]; auto. discriminate.
  - destruct (en_asns (configured md fl l)) as [al|] eqn:Ea; cbn [option_map].
    + cbn [bind]. set (as_ok := negb _ && as_list_contains_number al (n_asn n)).
      assert (As : as_ok = true <-> exists a, Some (map as_number (ol_elems al)) = Some a /\ In (n_asn n) a).
      { unfold as_ok. rewrite has_asn, andb_true_iff, existsb_exists. unfold olist_size. split.
        + intros (_ & z & Iz & Ez). exists (map as_number (ol_elems al)). split; auto. apply N.eqb_eq in Ez. now subst.
        + intros (a & [= <-] & I). split.
          * destruct (ol_elems al); [destruct I|reflexivity].
          * exists (n_asn n). split; auto. apply N.eqb_refl. }
      exists (as_ok || (negb (the_flags l =? 0) && negb (N.land (n_flags n) (the_flags l) =? 0))). split.
      { destruct as_ok; try reflexivity. cbn [orb]. now destruct (_ && _). }
      apply G. rewrite !orb_true_iff, As, andb_true_iff. assert (Z : N.land (n_flags n) 0 = 0) by apply N.land_0_r.
      assert (Fl : negb (the_flags l =? 0) = true /\ negb (N.land (n_flags n) (the_flags l) =? 0) = true <-> N.land (n_flags n) (the_flags l) <> 0).
      { destruct (N.eqb_spec (the_flags l) 0) as [Q|Q]; [rewrite Q, Z|]; cbn [negb]; lia. }
      rewrite Fl. split; [tauto|]. intros [(_ & X & _)|[(c & X & _)|[X|X]]]; auto; discriminate.
    + destruct (N.eqb_spec (the_flags l) 0) as [Q|Q].
      * exists true. split; auto. apply G. split; auto.
      * eexists. split; [reflexivity|]. apply G. split.
        -- intros X. right. right. right. lia.
        -- intros [(_ & _ & X)|[(c & X & _)|[(a & X & _)|X]]]; try discriminate; try congruence. lia.
Qed.

(** ** the order *)
Lemma split_lt q x y b c : net_wf x -> net_wf y -> pre (q ++ [false]) (path x ++ b) -> pre (q ++ [true]) (path y ++ c) -> (length q < n_prefix x)%nat -> (length q < n_prefix y)%nat ->
  lo y / 2 ^ N.of_nat (127 - length q) = lo x / 2 ^ N.of_nat (127 - length q) + 1 /\ N.even (lo x / 2 ^ N.of_nat (127 - length q)) = true.
Proof.
  intros Wx Wy P1 P2 L1 L2. set (L := length q) in *.
  assert (G : forall n e t, net_wf n -> pre (q ++ [e]) (path n ++ t) -> (L < n_prefix n)%nat ->
     msb L (lo n / 2 ^ N.of_nat (127 - L) / 2) = q /\ N.odd (lo n / 2 ^ N.of_nat (127 - L)) = e /\ lo n / 2 ^ N.of_nat (127 - L) / 2 < 2 ^ N.of_nat L).
  { intros n e t Wn P H. pose proof (w_prefix n Wn) as H8. pose proof (lo_bound n Wn) as Bn.
    assert (P' : pre (q ++ [e]) (path n)).
    { apply pre_comparable with (r := path n ++ t); auto; [apply pre_app|]. rewrite app_length, path_length. cbn [length]. lia. }
    apply pre_less with (r := msb 128 (lo n)) in P'; [|now apply path_pre_lo]. apply pre_firstn in P'. rewrite app_length in P'. cbn [length] in P'.
    fold L in P'. rewrite msb_prefix in P' by lia. unfold blk in P'. replace (128 - (L + 1))%nat with (127 - L)%nat in P' by lia.
    replace (L + 1)%nat with (S L) in P' by lia. cbn [msb] in P'. apply app_inj_tail in P' as [P1' P2']. split; auto. split; auto.
    rewrite N.div_div by (try apply N.pow_nonzero; lia). apply N.div_lt_upper_bound; [apply N.neq_mul_0; split; try apply N.pow_nonzero; lia|].
    replace (2 ^ N.of_nat (127 - L) * 2) with (2 ^ N.of_nat (128 - L)).
    - rewrite <- N.pow_add_r. now replace (N.of_nat (128 - L) + N.of_nat L) with 128 by lia.
    - replace (N.of_nat (128 - L)) with (N.of_nat (127 - L) + 1) by lia. now rewrite N.pow_add_r. }
  destruct (G x false b Wx P1 L1) as (A1 & A2 & A3). destruct (G y true c Wy P2 L2) as (B1 & B2 & B3).
  set (a := lo x / 2 ^ N.of_nat (127 - L)) in *. set (d := lo y / 2 ^ N.of_nat (127 - L)) in *.
  rewrite <- A1 in B1. apply msb_inj in B1; auto. split.
  - rewrite (N.div_mod d 2), (N.div_mod a 2), B1 by lia. rewrite <- !N.bit0_mod, !N.bit0_odd, A2, B2. cbn [N.b2n]. lia.
  - rewrite <- N.negb_odd, A2. reflexivity.
Qed.

Lemma quot_lt a b m : a / m < b / m -> a < b.
Proof.
  intros H. destruct (N.eq_dec m 0) as [->|Z]; [destruct a, b; cbn in H; lia|].
  destruct (N.lt_ge_cases a b); auto. pose proof (N.div_le_mono b a m Z). lia.
Qed.

Lemma key_lt x y : net_wf x -> net_wf y -> lo x < lo y \/ (lo x <= lo y /\ (n_prefix x < n_prefix y)%nat) -> key x < key y.
Proof.
  intros Wx Wy H. unfold key. change (num (n_first x)) with (lo x). change (num (n_first y)) with (lo y).
  pose proof (w_prefix x Wx). pose proof (w_prefix y Wy). lia.
Qed.

Lemma sorted_app {A} (R : A -> A -> Prop) l m : StronglySorted R l -> StronglySorted R m -> (forall x y, In x l -> In y m -> R x y) ->
  StronglySorted R (l ++ m).
Proof.
  induction 1 as [|x l S IH F]; intros Sm H; cbn [app]; auto. constructor.
  - apply IH; auto. intros a b Ia Ib. apply H; auto. now right.
  - apply Forall_app. split; auto. apply Forall_forall. intros y Iy. apply H; auto. now left.
Qed.

Lemma stored_at t q x : wf_at q t -> In x (stored t) -> net_wf x /\ pre q (path x).
Proof. intros W I. apply stored_nt in I as [r E]. apply (wf_nt q t r x W) in E as [E1 E2]. split; auto. exists r. exact E2. Qed.

Lemma stored_ascending t : forall q, wf_at q t -> SpecNetworkList.ascending (stored t).
Proof.
  induction t as [|dl n z IHz o IHo]; intros q W; [constructor|]. pose proof W as (Lq & _ & Wn & Wz & Wo). cbn [stored].
  specialize (IHz _ Wz). specialize (IHo _ Wo).
  assert (Deep : forall x b, net_wf x -> pre (q ++ [b]) (path x) -> (length q < n_prefix x)%nat).
  { intros x b Wx P. apply pre_length in P. rewrite app_length, path_length in P. cbn [length] in P. lia. }
  assert (ZO : SpecNetworkList.ascending (stored z ++ stored o)).
  { apply sorted_app; auto. intros x y Ix Iy. destruct (stored_at _ _ _ Wz Ix) as [Wx Px]. destruct (stored_at _ _ _ Wo Iy) as [Wy Py].
    apply key_lt; auto. left. apply quot_lt with (m := 2 ^ N.of_nat (127 - length q)).
    destruct (split_lt q x y [] []) as [E _]; auto; rewrite ?app_nil_r; eauto. rewrite E. lia. }
  apply sorted_app; auto.
  - destruct n; [constructor; constructor|constructor].
  - intros x y Ix Iy. destruct n as [n|]; [|destruct Ix]. destruct Ix as [<-|[]]. destruct (Wn n eq_refl) as [Wx Px].
    assert (X : net_wf y /\ exists b, pre (q ++ [b]) (path y)).
    { apply in_app_iff in Iy as [Iy|Iy]; [destruct (stored_at _ _ _ Wz Iy)|destruct (stored_at _ _ _ Wo Iy)]; eauto. }
    destruct X as [Wy [b Py]]. apply key_lt; auto. right. specialize (Deep y b Wy Py). split.
    + apply pre_less with (q := q) in Py; [|apply pre_app]. rewrite <- Px in Py. apply subnet_path in Py; auto.
      pose proof (proj1 (is_subnet_incl n y Wx Wy) Py (lo y) (inb_lo y Wy)) as [X _]. exact X.
    + rewrite <- (path_length n), Px. exact Deep.
Qed.

(** ** how full the stack gets *)
Definition empty_tree (t : tree) : bool := match t with Nil => true | _ => false end.
Lemma turns_count r : forall t, turns t r =
  length (filter (fun i => negb (nth i r false) && negb (empty_tree (sub t (firstn i r ++ [true])))) (seq 0 (length r))).
Proof.
  induction r as [|b r IH]; intros t; [destruct t; reflexivity|]. destruct t as [|dl n z o].
  - cbn [turns]. symmetry. assert (X : forall l, filter (fun i => negb (nth i (b :: r) false) && negb (empty_tree (sub Nil (firstn i (b :: r) ++ [true])))) l = []).
    { induction l as [|i l IHl]; auto. cbn [filter]. rewrite sub_nil. cbn [empty_tree negb]. rewrite andb_false_r. exact IHl. }
    rewrite X. reflexivity.
  - cbn [turns length]. rewrite IH. cbn [seq]. rewrite <- seq_shift. cbn [filter].
    assert (X : forall l, length (filter (fun i => negb (nth i (b :: r) false) && negb (empty_tree (sub (Node dl n z o) (firstn i (b :: r) ++ [true])))) (map S l)) =
      length (filter (fun i => negb (nth i r false) && negb (empty_tree (sub (if b then o else z) (firstn i r ++ [true])))) l)).
    { induction l as [|i l IHl]; auto. cbn [map filter]. cbn [nth firstn app sub].
      destruct (negb (nth i r false) && negb (empty_tree (sub (if b then o else z) (firstn i r ++ [true])))); cbn [length]; auto. }
    cbn [nth firstn app sub]. destruct b; cbn [negb andb].
    + rewrite X. reflexivity.
    + destruct o as [|d' n' z' o']; cbn [empty_tree negb length]; rewrite X; reflexivity.
Qed.

Lemma filter_le {A} (p q : A -> bool) l : (forall x, In x l -> p x = true -> q x = true) -> (length (filter p l) <= length (filter q l))%nat.
Proof.
  induction l as [|x l IH]; intros H; auto. cbn [filter]. specialize (IH (fun y I => H y (or_intror I))).
  destruct (p x) eqn:P; [rewrite (H x (or_introl eq_refl) P); cbn [length]; lia|]. destruct (q x); cbn [length]; lia.
Qed.

Lemma turns_le t r : (turns t r <= length r)%nat.
Proof.
  revert t. induction r as [|b r IH]; intros [|dl n z o]; cbn [turns length]; try lia.
  specialize (IH (if b then o else z)). destruct b, o; lia.
Qed.

Lemma turns_crowded t y : tree_ok t -> clean t -> In y (stored t) -> n_prefix y = 128%nat ->
  (turns t (path y) <= length (filter (sibling (stored t) (lo y)) (seq 0 128)))%nat.
Proof.
  intros T C Iy L. pose proof (stored_wf t y T Iy) as Wy. rewrite turns_count, path_length, L. apply filter_le. intros i Ii H.
  apply in_seq in Ii. apply andb_true_iff in H as [H1 H2]. set (q := firstn i (path y)) in *.
  assert (Lq : length q = i) by (unfold q; rewrite firstn_length, path_length; lia).
  assert (S0 : sub t (q ++ [true]) <> Nil) by (intros Q; rewrite Q in H2; discriminate).
  assert (exists b p, q ++ [true] = b :: p) as (b & p & E) by (destruct q as [|b p]; [exists true, []|exists b, (p ++ [true])]; reflexivity).
  rewrite E in S0. destruct (clean_some t b p C S0) as (r & x & Nx). rewrite <- E in Nx.
  destruct (wf_nt [] t _ x (proj1 T) Nx) as [Wx Px]. cbn [app] in Px.
  assert (Lx : (i < n_prefix x)%nat) by (rewrite <- path_length, Px, !app_length, Lq; cbn [length]; lia).
  assert (Py : pre (q ++ [false]) (path y)).
  { exists (skipn (S i) (path y)). rewrite <- app_assoc. cbn [app]. unfold q.
    rewrite <- (firstn_skipn i (path y)) at 1. f_equal. rewrite (skipn_nth _ i false) by (rewrite path_length; lia). f_equal.
    destruct (nth i (path y) false); [discriminate|reflexivity]. }
  destruct (split_lt q y x [] []) as [Q1 Q2]; auto.
  - now rewrite app_nil_r.
  - rewrite app_nil_r, Px. apply pre_app.
  - lia.
  - lia.
  - rewrite Lq in Q1, Q2. unfold sibling. rewrite Q2. cbn [andb]. apply existsb_exists. exists x. split; [apply stored_nt; eauto|].
    apply andb_true_iff. split; [apply Nat.ltb_lt; exact Lx|]. apply N.eqb_eq. exact Q1.
Qed.

Lemma room t : tree_ok t -> clean t -> (forall y, In y (stored t) -> n_prefix y = 128%nat -> ~ crowded (stored t) (num (n_first y))) ->
  forall r, sub t r <> Nil -> (length (@nil (N * N * nat)) + 1 + length r + turns t r <= 255)%nat.
Proof.
  intros T C H r S0. pose proof (wf_len [] t r (proj1 T) S0) as L. cbn [app] in L. pose proof (turns_le t r) as Tl. cbn [length].
  destruct (Nat.eq_dec (length r) 128) as [L8|]; [|lia].
  destruct r as [|b p]; [discriminate|]. destruct (clean_some t b p C S0) as (r & y & Ny).
  destruct (wf_nt [] t _ y (proj1 T) Ny) as [Wy Py]. cbn [app] in Py. change (b :: p ++ r) with ((b :: p) ++ r) in Py.
  assert (n_prefix y = 128%nat /\ r = []) as [Ly ->].
  { pose proof (w_prefix y Wy) as W8. pose proof (path_length y) as X. rewrite Py, app_length, L8 in X. split; [lia|]. destruct r; auto. cbn [length] in X. lia. }
  rewrite app_nil_r in Py, Ny. assert (Iy : In y (stored t)) by (apply stored_nt; eauto).
  specialize (H y Iy Ly). unfold crowded in H. change (num (n_first y)) with (lo y) in H.
  pose proof (turns_crowded t y T C Iy Ly) as X. rewrite Py in X. lia.
Qed.

Lemma towards t r x : wf_at [] t -> nt t r = Some x -> towards_v4 r -> ~ all_zero r -> straddles x.
Proof.
  intros W E [P L] Z. destruct (wf_nt [] t r x W E) as [Wx Px]. cbn [app] in Px. subst r. rewrite path_length in L. split.
  - split; [|lia]. destruct (Nat.le_gt_cases 81 (n_prefix x)) as [|G]; auto. exfalso. apply Z. unfold all_zero.
    apply pre_firstn in P. rewrite path_length in P. rewrite <- P.
    replace (n_prefix x) with (Nat.min (n_prefix x) 80) by lia. rewrite <- firstn_firstn.
    assert (F : Forall (fun b => b = false) (firstn 80 (msb 128 (65535 * 2 ^ 32)))) by (vm_compute; repeat constructor).
    rewrite Forall_forall in F |- *. intros b Ib. apply F. clear -Ib. rewrite <- (firstn_skipn (n_prefix x) (firstn 80 _)). apply in_or_app. now left.
  - apply member_inb. apply inb_path; auto. reflexivity.
Qed.

(** ** calls of loc_database_enumerator_next_network *)
Lemma from_stack_mode (filter : bool) n : forall e e' x, from_stack filter e n = Ok (e', x) -> en_mode e' = en_mode e /\ en_flatten e' = en_flatten e.
Proof.
  induction n as [|n IH]; intros e e' x H; cbn [from_stack] in H; destruct (list_pop_first (en_stack e)) as [[y s]| | |]; try discriminate; cbn [bind] in H;
    (destruct y as [y|]; [|injection H as <- <-; auto]);
    destruct (if filter then match_network _ y else Ok true) as [[|]| | |]; cbn [bind] in H; try discriminate; try (injection H as <- <-; auto).
  apply IH in H. exact H.
Qed.

Lemma search_same beyond d (filter : bool) fuel : forall e e' x r, search beyond d filter e fuel = Ok (e', x, r) -> same_but e e'.
Proof.
  induction fuel as [|fuel IH]; intros e e' x r H.
  - cbn [search] in H. destruct (en_nodes e) as [|[[? ?] ?] ?]; [|discriminate]. injection H as <- _ _. apply same_but_refl.
  - rewrite search_step in H. destruct (step0 beyond d e) as [[e2 v]| | |] eqn:Q; try discriminate. cbn [bind] in H.
    apply step0_same in Q. destruct v.
    + eapply same_but_trans; [exact Q|]. eauto.
    + destruct (if filter then match_network e2 x0 else Ok true) as [[|]| | |]; try discriminate; cbn [bind] in H.
      * injection H as <- _ _. exact Q.
      * eapply same_but_trans; [exact Q|]. eauto.
    + injection H as <- _ _. exact Q.
Qed.

Lemma next_inner_mode beyond d (filter : bool) e fuel e' x r : next_inner beyond d filter e fuel = Ok (e', x, r) ->
  en_mode e' = en_mode e /\ en_flatten e' = en_flatten e.
Proof.
  unfold next_inner. destruct (from_stack filter e (nsize (en_stack e))) as [[e1 y]| | |] eqn:F; try discriminate. cbn [bind].
  apply from_stack_mode in F as [F1 F2]. destruct y as [y|]; [intros [= <- _ _]; auto|]. intros H.
  apply search_same in H as (a & n & v & ->). cbn [with_search en_mode en_flatten]. auto.
Qed.

Lemma returns_next beyond d fuel old : forall l e e', returns (fun e => next_inner beyond d true e fuel) e l e' ->
  en_mode e = Networks -> en_flatten e = false ->
  returns (next_network beyond d fuel old) e l e' /\ en_mode e' = Networks /\ en_flatten e' = false.
Proof.
  induction l as [|x l IH]; intros e e' R M F; inversion R; subst; [split; [constructor|auto]|].
  match goal with H : _ = Ok (_, Some x, _) |- _ => rename H into H1 end. match goal with H : returns _ _ l e' |- _ => rename H into H2 end.
  pose proof (next_inner_mode _ _ _ _ _ _ _ _ H1) as [M1 F1].
  destruct (IH _ _ H2) as (R1 & R2); try congruence. split; auto. econstructor; [|exact R1].
  unfold next_network. rewrite M, F. exact H1.
Qed.

Lemma next_returns beyond d fuel old : forall l e e', returns (next_network beyond d fuel old) e l e' ->
  en_mode e = Networks -> en_flatten e = false ->
  returns (fun e => next_inner beyond d true e fuel) e l e' /\ en_mode e' = Networks /\ en_flatten e' = false.
Proof.
  induction l as [|x l IH]; intros e e' R M F; inversion R; subst; [split; [constructor|auto]|].
  match goal with H : _ = Ok (_, Some x, _) |- _ => rename H into H1 end. match goal with H : returns _ _ l e' |- _ => rename H into H2 end.
  unfold next_network in H1. rewrite M, F in H1.
  pose proof (next_inner_mode _ _ _ _ _ _ _ _ H1) as [M1 F1].
  destruct (IH _ _ H2) as (R1 & R2); try congruence. split; auto. econstructor; [exact H1|exact R1].
Qed.

Lemma enumerates_next beyond d fuel old e l : enumerates (fun e => next_inner beyond d true e fuel) e l ->
  en_mode e = Networks -> en_flatten e = false -> enumerates (next_network beyond d fuel old) e l.
Proof.
  intros (e1 & e2 & R & X) M F. destruct (returns_next beyond d fuel old l e e1 R M F) as (R1 & M1 & F1).
  exists e1, e2. split; auto. unfold next_network. rewrite M1, F1. exact X.
Qed.

Lemma steps_measure beyond d n e l e' : steps beyond d n e l e' -> marks_ok d e -> (n + measure d e' <= measure d e)%nat.
Proof.
  induction 1 as [e|n e e1 l e' H _ IH|n e e1 x l e' H _ IH]; intros M; [lia| |].
  - apply step0_shape in H as (M1 & L & _); auto. specialize (IH M1). lia.
  - apply step0_shape in H as (M1 & [L _] & _); auto. specialize (IH M1). lia.
Qed.

Lemma configured_marks d m fl l : marks_ok d (configured m fl l) /\ nsize (en_stack (configured m fl l)) = 0%nat /\
  measure d (configured m fl l) = (3 * N.to_nat (snd (d_tree d)) + 1)%nat.
Proof.
  destruct (configured_state m fl l) as (_ & _ & _ & _ & _ & En & Ev & Es & _). cbv zeta in *.
  unfold marks_ok, measure. rewrite En, Ev, Es. split; [split; constructor|]. split; [reflexivity|]. cbn [length]. lia.
Qed.

(** ** any file *)
Lemma any_file beyond d fuel old l L e : (3 * N.to_nat (snd (d_tree d)) + 1 <= fuel)%nat ->
  returns (next_network beyond d fuel old) (configured Networks false l) L e ->
  (length L <= N.to_nat (snd (d_tree d)))%nat /\ next_network beyond d fuel old e <> Fuel.
Proof.
  intros F R. destruct (configured_state Networks false l) as (M & Fl & _). cbv zeta in *.
  destruct (configured_marks d Networks false l) as (K1 & K2 & K3).
  destruct (next_returns beyond d fuel old L _ e R M Fl) as (R1 & M1 & F1).
  destruct (enumeration_ends beyond d fuel L _ e K1 K2 ltac:(rewrite K3; lia) R1) as [E1 E2]. split; [lia|].
  unfold next_network. rewrite M1, F1. exact E2.
Qed.

Lemma filter_split {A} (p : A -> bool) l : (length (filter p l) + length (filter (fun x => negb (p x)) l) = length l)%nat.
Proof. induction l as [|x l IH]; [reflexivity|]. cbn [filter]. destruct (p x); cbn [negb length]; lia. Qed.
Lemma two_less_seq (p : nat -> bool) i j n : p i = false -> p j = false -> (i < j < n)%nat -> (length (filter p (seq 0 n)) + 2 <= n)%nat.
Proof.
  intros Hi Hj L. pose proof (filter_split p (seq 0 n)) as E. rewrite seq_length in E.
  assert (B : (length [i; j] <= length (filter (fun x => negb (p x)) (seq 0 n)))%nat).
  { apply NoDup_incl_length.
    - constructor; [intros [Q|[]]; lia|]. constructor; [intros []|constructor].
    - intros x [<-|[<-|[]]]; apply filter_In; rewrite in_seq, ?Hi, ?Hj; split; auto; lia. }
  cbn [length] in B. lia.
Qed.
Lemma two_less (p : nat -> bool) i j : p i = false -> p j = false -> (i < j < 128)%nat -> (length (filter p (seq 0 128)) <= 126)%nat.
Proof. intros Hi Hj L. pose proof (two_less_seq p i j 128 Hi Hj L). lia. Qed.
(** a bit of the address that is set *)
Lemma sibling_odd Ns v i : N.even (v / 2 ^ N.of_nat (127 - i)) = false -> sibling Ns v i = false.
Proof. intros H. unfold sibling. now rewrite H. Qed.
Lemma sibling_none Ns v i : (forall z, In z Ns -> num (n_first z) / 2 ^ N.of_nat (127 - i) <> v / 2 ^ N.of_nat (127 - i) + 1) -> sibling Ns v i = false.
Proof.
  intros H. apply not_true_iff_false. unfold sibling. intros X. apply andb_true_iff in X as [_ X]. apply existsb_exists in X as (z & Iz & X).
  apply andb_true_iff in X as [_ X]. apply N.eqb_eq in X. exact (H z Iz X).
Qed.

Lemma filter_more {A} (p q : A -> bool) l : (forall x, p x = true -> q x = true) -> (length (filter p l) <= length (filter q l))%nat.
Proof.
  intros H. induction l as [|a l IH]; [apply le_n|]. cbn [filter]. destruct (p a) eqn:P.
  - rewrite (H a P). cbn [length]. lia.
  - destruct (q a); cbn [length]; lia.
Qed.

(** the addresses of IPv4 networks *)
Lemma mapped_members z v : net_wf z -> n_family z = AF_INET -> inb z v -> 65535 * 2 ^ 32 <= v < 65536 * 2 ^ 32.
Proof.
  intros Wz F M. rewrite (w_family z Wz) in F. destruct (mappedb (lo z)) eqn:Q; [|discriminate]. pose proof (w_prefix4 z Wz Q) as P. pose proof (w_prefix z Wz) as P8.
  unfold mappedb in Q. apply N.eqb_eq in Q. apply inb_iff in M; auto. assert (v / 2 ^ 32 = 65535).
  { rewrite <- Q. assert (D : forall u, u / 2 ^ 32 = u / blk (n_prefix z) / 2 ^ N.of_nat (n_prefix z - 96)).
    { intros u. unfold blk. rewrite N.div_div by (apply N.pow_nonzero; lia). rewrite <- N.pow_add_r. do 2 f_equal. lia. }
    rewrite !D. f_equal. exact M. }
  pose proof (N.div_mod v (2 ^ 32) ltac:(lia)). pose proof (N.mod_lt v (2 ^ 32) ltac:(lia)). lia.
Qed.

Lemma short_v6 y : net_wf y -> (n_prefix y <= 95)%nat -> n_family y = AF_INET6.
Proof.
  intros W P. rewrite (w_family y W). destruct (mappedb (lo y)) eqn:Q; [|reflexivity]. pose proof (w_prefix4 y W Q). lia.
Qed.

Lemma v6_prefix y v : net_wf y -> n_family y = AF_INET6 -> member y v -> 65535 * 2 ^ 32 <= v < 65536 * 2 ^ 32 -> (n_prefix y <= 95)%nat.
Proof.
  intros W F M V. destruct (le_lt_dec (n_prefix y) 95) as [P|P]; auto. exfalso.
  rewrite (w_family y W) in F. destruct (mappedb (lo y)) eqn:Q; [discriminate|]. apply member_inb in M. apply inb_iff in M; auto.
  pose proof (w_prefix y W). unfold mappedb in Q. apply N.eqb_neq in Q. apply Q.
  assert (D : forall u, u / 2 ^ 32 = u / blk (n_prefix y) / 2 ^ N.of_nat (n_prefix y - 96)).
  { intros u. unfold blk. rewrite N.div_div by (apply N.pow_nonzero; lia). rewrite <- N.pow_add_r. do 2 f_equal. lia. }
  rewrite D, <- M, <- D. symmetry. apply (N.div_unique v (2 ^ 32) 65535 (v - 65535 * 2 ^ 32)); lia.
Qed.

(** Only 0 and the powers of two can have so many siblings. *)
Lemma crowded_lone Ns v : v < 2 ^ 128 -> crowded Ns v -> v = 0 \/ exists k, v = 2 ^ k.
Proof.
  intros V C. destruct (N.eq_dec v 0) as [|Nz]; auto. right. set (k := N.log2 v).
  pose proof (N.log2_spec v ltac:(lia)) as [K1 K2]. fold k in K1, K2.
  exists k. destruct (N.eq_dec (v - 2 ^ k) 0) as [|Nr]; [lia|exfalso]. set (r := v - 2 ^ k) in *. set (j := N.log2 r).
  pose proof (N.log2_spec r ltac:(lia)) as [J1 J2]. fold j in J1, J2.
  rewrite N.pow_succ_r' in K2, J2.
  assert (Jk : j < k). { apply (N.pow_lt_mono_r_iff 2); [lia|]. lia. }
  assert (K8 : k < 128). { apply (N.pow_lt_mono_r_iff 2); [lia|]. lia. }
  assert (Odd : forall b, v / 2 ^ b = 1 \/ (exists q, v / 2 ^ b = 2 * q + 1) -> N.even (v / 2 ^ b) = false).
  { intros b [->|[q ->]]; [reflexivity|]. rewrite N.even_add, N.even_mul. reflexivity. }
  apply (Nat.lt_irrefl 126). eapply Nat.lt_le_trans; [exact C|]. unfold crowded in C.
  apply (two_less _ (127 - N.to_nat k) (127 - N.to_nat j)); [| |lia]; apply sibling_odd.
  - replace (N.of_nat (127 - (127 - N.to_nat k))) with k by lia. apply Odd. left.
    symmetry. apply (N.div_unique v (2 ^ k) 1 r); lia.
  - replace (N.of_nat (127 - (127 - N.to_nat j))) with j by lia. apply Odd. right. exists (2 ^ (k - j - 1)).
    assert (E : 2 ^ k = 2 * 2 ^ (k - j - 1) * 2 ^ j).
    { rewrite <- N.pow_succ_r', <- N.pow_add_r. f_equal. lia. }
    symmetry. apply (N.div_unique v (2 ^ j) _ (r - 2 ^ j)); [lia|]. 
    replace (2 ^ j * (2 * 2 ^ (k - j - 1) + 1)) with (2 * 2 ^ (k - j - 1) * 2 ^ j + 2 ^ j) by ring. rewrite <- E. lia.
Qed.

Lemma as_read_cc y : net_wf y -> cc_ok (n_cc (as_read y)).
Proof.
  intros W. cbn [as_read n_cc]. pose proof (w_cc y W) as C. destruct (N.eqb_spec (fst (n_cc y)) 0); auto. left. cbn. lia.
Qed.

(** deciding whether a list of networks is one of these *)
Definition straddlesb (y : network) : bool :=
  ((81 <=? n_prefix y)%nat && (n_prefix y <=? 95)%nat) && ((num (n_first y) <=? 65535 * 2 ^ 32) && (65535 * 2 ^ 32 <=? num (n_last y))).
Definition hostsb (Ns : list network) : bool :=
  forallb (fun y => negb (n_prefix y =? 128)%nat || (length (filter (sibling Ns (num (n_first y))) (seq 0 128)) <=? 126)%nat) Ns.
Definition enumerableb (Ns : list network) : bool := forallb (fun y => negb (straddlesb y)) Ns && hostsb Ns.
Definition regularb (y : network) : bool :=
  match n_family y with AF_INET => true | AF_INET6 => (2 ^ 49 <=? num (n_first y)) || (n_prefix y <=? 79)%nat end.
Definition apartb (y z : network) : bool :=
  match n_family y, n_family z with
  | AF_INET6, AF_INET => (num (n_last y) <? num (n_first z)) || (num (n_last z) <? num (n_first y))
  | _, _ => true
  end.
Definition ordinaryb (Ns : list network) : bool :=
  forallb regularb Ns && forallb (fun y => forallb (apartb y) Ns) Ns && hostsb Ns.

Lemma hosts_check Ns : hostsb Ns = true -> forall y, In y Ns -> n_prefix y = 128%nat -> ~ crowded Ns (num (n_first y)).
Proof.
  intros H y I P. unfold hostsb in H. rewrite forallb_forall in H. specialize (H y I). cbv beta in H. apply Nat.eqb_eq in P. rewrite P in H.
  change (negb true) with false in H. rewrite orb_false_l in H. apply Nat.leb_le in H. apply Nat.le_ngt. exact H.
Qed.
Lemma enumerable_check Ns : enumerableb Ns = true -> enumerable Ns.
Proof.
  intros H. apply andb_true_iff in H as [H1 H2]. split; [|now apply hosts_check].
  intros y I [P M]. rewrite forallb_forall in H1. specialize (H1 y I). apply negb_true_iff in H1. rewrite <- not_true_iff_false in H1.
  apply H1. unfold straddlesb. destruct M as [M1 M2]. apply N.leb_le in M1, M2. rewrite M1, M2.
  replace (81 <=? n_prefix y)%nat with true by lia. now replace (n_prefix y <=? 95)%nat with true by lia.
Qed.
Lemma ordinary_check Ns : ordinaryb Ns = true -> ordinary Ns.
Proof.
  intros H. apply andb_true_iff in H as [H H3]. apply andb_true_iff in H as [H1 H2]. rewrite forallb_forall in H1, H2.
  split; [|split; [|now apply hosts_check]].
  - intros y I. specialize (H1 y I). unfold regularb in H1. unfold regular. destruct (n_family y); auto.
    right. apply orb_true_iff in H1 as [H1|H1]; [left; now apply N.leb_le|right; now apply Nat.leb_le].
  - intros y z Iy Iz Fy Fz v [[A1 A2] [B1 B2]]. specialize (H2 y Iy). rewrite forallb_forall in H2. specialize (H2 z Iz).
    unfold apartb in H2. rewrite Fy, Fz in H2. apply orb_true_iff in H2 as [H2|H2]; apply N.ltb_lt in H2; lia.
Qed.

Section Props.
Variables (ctz0 : nat) (held : network -> bool) (key1 key2 : option evp).
Variables (os : list call) (w : writer) (x : save) (w' : writer) (f : list N) (d : db).
Hypothesis Call : Forall call_ok os.
Hypothesis Prog : program ctz0 held key1 key2 os = Ok w.
Hypothesis Write : write_to ctz0 held key1 key2 w x = Ok (0%Z, w', f).
Hypothesis Size : N.of_nat (length f) < 2 ^ 32.
Hypothesis Now : s_now x < 2 ^ 64.
Hypothesis Open : db_open f = Ok d.

(** The steps of the search over the whole tree *)
Lemma whole_tree beyond fl m l :
  (forall y, In y (stored (w_tree w')) -> ~ straddles y) ->
  (forall y, In y (stored (w_tree w')) -> n_prefix y = 128%nat -> ~ crowded (stored (w_tree w')) (num (n_first y))) ->
  exists n e', steps beyond d n (configured m fl l) (map as_read (stored (w_tree w'))) e' /\ en_nodes e' = [] /\
    (n <= 3 * N.to_nat (snd (d_tree d)) + 1)%nat.
Proof.
  intros St Cr. destruct (tree_after _ _ _ _ _ _ _ _ _ _ Call Prog Write Size Now Open) as [T C].
  destruct (represented _ _ _ _ _ _ _ _ _ _ Call Prog Write Size Now Open) as (nodes & nets & R & K & Ln & _ & H1 & H2 & H3).
  destruct (configured_state m fl l) as (_ & _ & _ & _ & Ea & En & Ev & _). cbv zeta in *.
  destruct (tree_steps beyond d nodes nets H1 H2 H3 K (w_tree w') [] (configured m fl l) 0 []) as (n & a & v & S & _).
  - intros Q. rewrite Q in R. destruct R.
  - apply T.
  - exact R.
  - reflexivity.
  - exact En.
  - rewrite Ea. apply wf_zero.
  - cbn [removelast]. eexists. cbn [app]. reflexivity.
  - intros _. rewrite Ea. reflexivity.
  - intros j _. rewrite Ev. auto.
  - exact (room _ T C Cr).
  - intros r y E [X1 X2]. cbn [app] in X1, X2. apply (St y); [apply stored_nt; eauto|]. exact (towards _ r y (proj1 T) E X1 X2).
  - exists n, (with_search (configured m fl l) a [] v). split; [exact S|]. split; [reflexivity|].
    destruct (configured_marks d m fl l) as (K1 & _ & K3).
    pose proof (steps_measure beyond d n _ _ _ S K1) as X. rewrite K3 in X. lia.
Qed.

Lemma enumerate_networks beyond fuel old l : Forall setting_ok l -> (3 * N.to_nat (snd (d_tree d)) + 1 <= fuel)%nat ->
  (forall y, In y (stored (w_tree w')) -> ~ straddles y) ->
  (forall y, In y (stored (w_tree w')) -> n_prefix y = 128%nat -> ~ crowded (stored (w_tree w')) (num (n_first y))) ->
  exists L, enumerates (next_network beyond d fuel old) (configured Networks false l) L /\
    SpecNetworkList.ascending L /\
    forall n, In n L <-> exists y, In y (stored (w_tree w')) /\ n = as_read y /\ wanted l n.
Proof.
  intros Sok Fu St Cr. destruct (whole_tree beyond false Networks l St Cr) as (n & e' & S & En & Ln).
  destruct (tree_after _ _ _ _ _ _ _ _ _ _ Call Prog Write Size Now Open) as [T C].
  set (e := configured Networks false l) in *.
  set (keep := fun z => match match_network e z with Ok b => b | _ => false end).
  assert (K : forall z, In z (map as_read (stored (w_tree w'))) -> match_network e z = Ok (keep z) /\ (keep z = true <-> wanted l z)).
  { intros z I. apply in_map_iff in I as (y & <- & I). pose proof (stored_wf _ _ T I) as Wy.
    destruct (match_wanted Networks false l (as_read y) Sok (as_read_cc y Wy)) as (b & Hb & B). fold e in Hb. unfold keep. rewrite Hb. auto. }
  destruct (configured_state Networks false l) as (M & Fl & _). cbv zeta in *.
  destruct (configured_marks d Networks false l) as (_ & K2 & _).
  exists (filter keep (map as_read (stored (w_tree w')))). split; [|split].
  - apply enumerates_next; auto. apply steps_enumerates with (n := n) (e' := e'); auto; [|lia].
    intros z I. apply K. exact I.
  - assert (A : SpecNetworkList.ascending (map as_read (stored (w_tree w')))).
    { pose proof (stored_ascending _ [] (proj1 T)) as A. clear -A. unfold SpecNetworkList.ascending in *.
      induction A as [|a m A IH F]; [constructor|]. cbn [map]. constructor; auto. apply Forall_forall. intros b I.
      apply in_map_iff in I as (c & <- & I). rewrite Forall_forall in F. exact (F c I). }
    clear -A. unfold SpecNetworkList.ascending in *. induction A as [|a m A IH F]; [constructor|]. cbn [filter].
    destruct (keep a); auto. constructor; auto. apply Forall_forall. intros b I. apply filter_In in I as [I _].
    rewrite Forall_forall in F. auto.
  - intros z. rewrite filter_In. split.
    + intros [I H]. apply (K z I) in H. apply in_map_iff in I as (y & <- & I). exists y. auto.
    + intros (y & I & -> & H). assert (Ir : In (as_read y) (map as_read (stored (w_tree w')))) by now apply in_map. split; auto.
      now apply K.
Qed.

(** ** in terms of the networks that were added *)
Lemma covered_before y v : In y (stored (w_tree w')) -> member y v -> v < 2 ^ 128 -> exists z, In z (stored (w_tree w)) /\ member z v.
Proof.
  intros I M V. assert (exists z, most_specific (stored (w_tree w')) v z) as [z Z] by (eapply most_exists; eauto).
  destruct (proj2 (same_attributes _ _ _ _ _ _ _ _ _ _ Call Prog Write Size Now Open v (attributes z) V)) as (z' & (I' & M' & _) & _); eauto.
Qed.

Hypothesis NoSave : Forall no_save os.

Lemma covered_given y v : In y (stored (w_tree w')) -> member y v -> exists z, In z (given os) /\ member z v.
Proof.
  intros I M. assert (V : v < 2 ^ 128).
  { destruct M as [_ M]. pose proof (stored_after_wf _ _ _ _ _ _ _ _ _ _ Call Prog Write Size Now Open y I) as W. pose proof (hi_bound y W).
    change (num (n_last y)) with (hi y) in M. lia. }
  destruct (covered_before y v I M V) as (z & Iz & Mz). exists z. split; auto. now apply (given_iff _ _ _ _ _ _ Call NoSave Prog).
Qed.

(** every network of the file is made of networks that were added *)
Lemma pieces z v : In z (stored (w_tree w')) -> member z v ->
  exists y, In y (given os) /\ n_family y = n_family z /\ attributes y = attributes z /\ member y v /\
    (n_prefix z <= n_prefix y)%nat /\ forall u, member y u -> member z u.
Proof.
  intros I M. destruct (program_tree _ _ _ _ os w Call Prog) as [rs R].
  destruct (cleanup_pieces ctz0 held _ _ _ _ (network_ops_ok os Call) R (is_cleaned _ _ _ _ _ _ _ _ _ _ Call Prog Write Size Now Open) z v I M) as (y & Iy & P).
  exists y. split; [|exact P]. now apply (given_iff _ _ _ _ _ _ Call NoSave Prog).
Qed.

Lemma given_net_wf y : In y (given os) -> net_wf y.
Proof. intros I. apply (given_iff _ _ _ _ _ _ Call NoSave Prog) in I. exact (stored_before_wf _ _ _ _ _ _ Call Prog y I). Qed.

Lemma enumerable_stored : enumerable (given os) ->
  (forall y, In y (stored (w_tree w')) -> ~ straddles y) /\
  (forall y, In y (stored (w_tree w')) -> n_prefix y = 128%nat -> ~ crowded (stored (w_tree w')) (num (n_first y))).
Proof.
  intros [O1 O2]. pose proof (stored_after_wf _ _ _ _ _ _ _ _ _ _ Call Prog Write Size Now Open) as Wf. split.
  - intros y I [P M]. destruct (pieces y _ I M) as (z & Iz & F & _ & Mz & Pz & _). apply (O1 z Iz). split; [|exact Mz]. split; [lia|].
    apply (v6_prefix z (65535 * 2 ^ 32)); auto; [now apply given_net_wf| |lia]. rewrite F. apply short_v6; auto. lia.
  - intros y I P C.
    destruct (pieces y (num (n_first y)) I (inb_lo y (Wf y I))) as (z & Iz & _ & _ & Mz & Pz & _).
    pose proof (given_net_wf z Iz) as Wz. pose proof (w_prefix z Wz) as P8.
    assert (E : num (n_first z) = num (n_first y)).
    { apply member_inb in Mz. apply inb_iff in Mz; auto. change (num (n_first y)) with (lo y) in *. change (num (n_first z)) with (lo z).
      assert (B : blk (n_prefix z) = 1) by (unfold blk; replace (128 - n_prefix z)%nat with 0%nat by lia; reflexivity).
      rewrite B, !N.div_1_r in Mz. auto. }
    apply (O2 z Iz); [lia|]. rewrite E. unfold crowded in *. eapply Nat.lt_le_trans; [exact C|]. apply filter_more. intros i X.
    unfold sibling in *. apply andb_true_iff in X as [X1 X2]. rewrite X1. apply existsb_exists in X2 as (u & Iu & X2).
    apply andb_true_iff in X2 as [X2 X3]. apply Nat.ltb_lt in X2. apply N.eqb_eq in X3. apply existsb_exists.
    destruct (pieces u (num (n_first u)) Iu (inb_lo u (Wf u Iu))) as (t & It & _ & _ & Mt & Pt & Ct).
    exists t. split; auto. pose proof (given_net_wf t It) as Wt. pose proof (w_prefix u (Wf u Iu)) as Pu.
    apply andb_true_iff. split; [apply Nat.ltb_lt; lia|]. apply N.eqb_eq. rewrite <- X3.
    specialize (Ct (num (n_first t)) (inb_lo t Wt)). apply member_inb in Ct. apply inb_iff in Ct; auto.
    assert (D : forall a, a / 2 ^ N.of_nat (127 - i) = a / blk (n_prefix u) / 2 ^ N.of_nat (n_prefix u - 1 - i)).
    { clear -X2 Pu. intros a. unfold blk. rewrite N.div_div by (apply N.pow_nonzero; lia). rewrite <- N.pow_add_r. do 2 f_equal. lia. }
    rewrite !D. f_equal. exact Ct || (symmetry; exact Ct).
Qed.

Lemma ordinary_enumerable : ordinary (given os) -> enumerable (given os).
Proof.
  intros (O1 & _ & O3). split; auto. intros y I [P M]. pose proof (given_net_wf y I) as W.
  destruct (O1 y I) as [F|[F|F]]; [|destruct M; lia|lia]. rewrite (short_v6 y W) in F by lia. discriminate.
Qed.

(** which family an address has *)
Lemma ordinary_family : ordinary (given os) -> forall y z v, In y (stored (w_tree w')) -> In z (given os) ->
  member y v -> member z v -> n_family y = n_family z.
Proof.
  intros (_ & O & _) y z v Iy Iz My Mz. destruct (pieces y v Iy My) as (u & Iu & F & _ & Mu & _). rewrite <- F.
  destruct (n_family u) eqn:Fu, (n_family z) eqn:Fz; auto; exfalso.
  - exact (O z u Iz Iu Fz Fu v (conj Mz Mu)).
  - exact (O u z Iu Iz Fu Fz v (conj Mu Mz)).
Qed.

(** where the IPv6 networks of the file are *)
Lemma ordinary_v6 : ordinary (given os) -> forall y v, In y (stored (w_tree w')) -> n_family y = AF_INET6 -> member y v -> v < 2 ^ 49 ->
  (n_prefix y <= 79)%nat.
Proof.
  intros (O1 & _) y v Iy F My V. destruct (pieces y v Iy My) as (u & Iu & Fu & _ & Mu & Pu & _).
  destruct (O1 u Iu) as [X|[X|X]]; [congruence|destruct Mu; lia|lia].
Qed.

(** What the networks say about addresses *)
Lemma read_meaning L : (forall n, In n L <-> exists y, In y (stored (w_tree w')) /\ n = as_read y) ->
  forall v c a fl, v < 2 ^ 128 ->
  (exists z, most_specific L v z /\ get_country_code z = c /\ n_asn z = a /\ n_flags z = fl) <->
  (exists z, most_specific (given os) v z /\ get_country_code z = c /\ n_asn z = a /\ n_flags z mod 2 ^ 16 = fl).
Proof.
  intros H v c a fl V. pose proof (fun at_ => same_attributes _ _ _ _ _ _ _ _ _ _ Call Prog Write Size Now Open v at_ V) as Sa.
  pose proof (given_iff _ _ _ _ _ _ Call NoSave Prog) as G.
  assert (Gc : forall y, get_country_code (as_read y) = get_country_code y).
  { intros y. unfold get_country_code, as_read. cbn [n_cc]. destruct (n_cc y) as [c1 c2]. cbn [fst]. unfold cc_str.
    destruct (N.eqb_spec c1 0) as [->|]; [reflexivity|]. replace (c1 =? 0) with false by lia. reflexivity. }
  assert (Mg : forall z, most_specific (given os) v z <-> most_specific (stored (w_tree w)) v z).
  { intros z. split; apply most_given; intros u; [symmetry|]; apply G. }
  assert (Ml : forall y, most_specific (stored (w_tree w')) v y -> most_specific L v (as_read y)).
  { intros y (I & M & U). split; [apply H; eauto|]. split; [exact M|]. intros u Iu Mu. apply H in Iu as (t & It & ->). exact (U t It Mu). }
  split.
  - intros (z & (I & M & U) & E1 & E2 & E3). apply H in I as (y & I & ->). rewrite Gc in E1.
    destruct (proj2 (Sa (attributes y))) as (z' & M' & At).
    { exists y. split; auto. split; auto. split; [exact M|]. intros u Iu Mu. exact (U (as_read u) (proj2 (H _) (ex_intro _ u (conj Iu eq_refl))) Mu). }
    unfold attributes in At. injection At as A1 A2 A3. exists z'. split; [now apply Mg|]. unfold get_country_code in *. rewrite A1, A2, A3.
    cbn [as_read n_asn n_flags] in E2, E3. auto.
  - intros (z & M & E1 & E2 & E3). apply Mg in M. destruct (proj1 (Sa (attributes z))) as (y & My & At); [eauto|].
    unfold attributes in At. injection At as A1 A2 A3. exists (as_read y). split; auto. rewrite Gc.
    unfold get_country_code in *. cbn [as_read n_asn n_flags]. rewrite A1, A2, A3. auto.
Qed.

Lemma enumerate_meaning beyond fuel old : (3 * N.to_nat (snd (d_tree d)) + 1 <= fuel)%nat -> enumerable (given os) ->
  exists Ns, SpecNetworkList.ascending Ns /\
  (forall l, Forall setting_ok l -> exists L, enumerates (next_network beyond d fuel old) (configured Networks false l) L /\
     SpecNetworkList.ascending L /\ forall n, In n L <-> In n Ns /\ wanted l n) /\
  forall v c a fl, v < 2 ^ 128 ->
    (exists z, most_specific Ns v z /\ get_country_code z = c /\ n_asn z = a /\ n_flags z = fl) <->
    (exists z, most_specific (given os) v z /\ get_country_code z = c /\ n_asn z = a /\ n_flags z mod 2 ^ 16 = fl).
Proof.
  intros Fu O. destruct (enumerable_stored O) as [St Cr].
  destruct (enumerate_networks beyond fuel old [] ltac:(constructor) Fu St Cr) as (Ns & _ & A & H).
  assert (W0 : forall n, wanted [] n) by (intros n; split; left; [reflexivity|auto]).
  assert (H' : forall n, In n Ns <-> exists y, In y (stored (w_tree w')) /\ n = as_read y).
  { intros n. rewrite H. split; intros (y & X1 & X2); exists y; [tauto|]. split; auto. }
  exists Ns. split; [exact A|]. split.
  - intros l Sl. destruct (enumerate_networks beyond fuel old l Sl Fu St Cr) as (L & E & AL & HL). exists L. split; [exact E|]. split; [exact AL|].
    intros n. rewrite HL, H'. split.
    + intros (y & X1 & X2 & X3). split; eauto.
    + intros [(y & X1 & X2) X3]. eauto.
  - exact (read_meaning Ns H').
Qed.
End Props.
