(** The exporter. *)
From Coq Require Import String.
From Coq Require Import NArith ZArith List Bool Arith Lia ZifyBool ZifyNat ZifyN Permutation.
From Verif Require Import Base ModelAddress ModelCountryCode ModelNetwork ModelNetworkList ModelStringPool ModelObjects ModelTree
  ModelFile ModelWriter ModelDatabase ModelEnum SpecNetwork SpecObjects SpecNetworkList SpecTree SpecWriter SpecEnum LemmasObjects
  LemmasTreeProps LemmasSpecNetwork LemmasEnumDb LemmasEnumFlatDb LemmasEnumBogonDb ModelDownload ModelText SpecText ModelExport SpecExport LemmasStringPool LemmasNetwork SpecWriter.
Import ListNotations.
Open Scope N_scope.
Local Opaque cleanup.

Lemma wkey_eqb_eq a b : wkey_eqb a b = true <-> a = b.
Proof.
  destruct a, b; cbn [wkey_eqb]; try (split; discriminate).
  - rewrite cstr_eqb_eq. split; congruence.
  - rewrite N.eqb_eq. split; congruence.
Qed.
Lemma wkey_dec (a b : wkey) : {a = b} + {a <> b}.
Proof. decide equality; [apply list_eq_dec|]; apply N.eq_dec. Defined.

(** ** Writing *)
Lemma wwrite_in k' n ws k l : In (k, l) (wwrite k' n ws) <->
  exists l0, In (k, l0) ws /\ l = if wkey_dec k k' then l0 ++ [n] else l0.
Proof.
  unfold wwrite. rewrite in_map_iff. split.
  - intros ([k1 l1] & E & I1). cbn [fst snd] in E. destruct (wkey_eqb k1 k') eqn:Q.
    + apply wkey_eqb_eq in Q. injection E as <- <-. exists l1. split; auto. destruct (wkey_dec k1 k'); [auto|contradiction].
    + injection E as <- <-. exists l1. split; auto. destruct (wkey_dec k1 k') as [X|]; auto. apply wkey_eqb_eq in X. congruence.
  - intros (l0 & I1 & ->). exists (k, l0). split; auto. cbn [fst snd]. destruct (wkey_dec k k') as [X|X].
    + apply wkey_eqb_eq in X. now rewrite X.
    + destruct (wkey_eqb k k') eqn:Q; auto. apply wkey_eqb_eq in Q. contradiction.
Qed.

Lemma wwrites_in n ks : NoDup ks -> forall ws k l, In (k, l) (fold_left (fun ws k => wwrite k n ws) ks ws) <->
  exists l0, In (k, l0) ws /\ l = if in_dec wkey_dec k ks then l0 ++ [n] else l0.
Proof.
  induction 1 as [|k0 ks Nk ND IH]; intros ws k l; cbn [fold_left].
  - split; [intros H; exists l; auto|]. intros (l0 & H & E). cbn in E. now subst.
  - rewrite IH. split.
    + intros (l1 & I1 & E). apply wwrite_in in I1 as (l0 & I0 & E0). exists l0. split; auto.
      destruct (wkey_dec k k0) as [Q|Q].
      * subst k0. destruct (in_dec wkey_dec k ks); [contradiction|]. destruct (in_dec wkey_dec k (k :: ks)) as [|X]; [congruence|].
        exfalso. apply X. now left.
      * subst l1. destruct (in_dec wkey_dec k ks), (in_dec wkey_dec k (k0 :: ks)) as [X|X]; auto.
        -- exfalso. apply X. now right.
        -- exfalso. destruct X; congruence.
    + intros (l0 & I0 & E). exists (if wkey_dec k k0 then l0 ++ [n] else l0). split; [apply wwrite_in; eauto|].
      destruct (wkey_dec k k0) as [Q|Q].
      * subst k0. destruct (in_dec wkey_dec k ks); [contradiction|]. destruct (in_dec wkey_dec k (k :: ks)) as [|X]; [congruence|].
        exfalso. apply X. now left.
      * destruct (in_dec wkey_dec k ks), (in_dec wkey_dec k (k0 :: ks)) as [X|X]; auto.
        -- exfalso. apply X. now right.
        -- exfalso. destruct X; congruence.
Qed.

Definition flag_keys (n : network) : list wkey :=
  flat_map (fun f => if has_flag n (fst f) =? 0 then [] else [Code (snd f)]) FLAGS.
Definition keys_of (n : network) : list wkey :=
  Code (get_country_code n) :: (if n_asn n =? 0 then [] else [Asn (n_asn n)]) ++ flag_keys n.

Lemma export_one_keys ws n : export_one ws n = fold_left (fun ws k => wwrite k n ws) (keys_of n) ws.
Proof.
  unfold export_one, keys_of. cbn [fold_left]. rewrite fold_left_app.
  replace (fold_left (fun ws0 k => wwrite k n ws0) (if n_asn n =? 0 then [] else [Asn (n_asn n)]) (wwrite (Code (get_country_code n)) n ws))
    with (if n_asn n =? 0 then wwrite (Code (get_country_code n)) n ws else wwrite (Asn (n_asn n)) n (wwrite (Code (get_country_code n)) n ws))
    by (destruct (n_asn n =? 0); reflexivity).
  unfold flag_keys. generalize FLAGS. generalize (if n_asn n =? 0 then wwrite (Code (get_country_code n)) n ws else wwrite (Asn (n_asn n)) n (wwrite (Code (get_country_code n)) n ws)).
  intros w fl. revert w. induction fl as [|f fl IH]; intros w; [reflexivity|]. cbn [fold_left flat_map]. rewrite fold_left_app, IH.
  destruct (has_flag n (fst f) =? 0); reflexivity.
Qed.

Lemma flags_special c flag : In (flag, c) FLAGS <-> special c flag.
Proof.
  unfold FLAGS. cbn -[N.eqb]. split.
  - intros [E|[E|[E|[E|[]]]]]; injection E as <- <-; constructor.
  - intros []; auto.
Qed.
Lemma in_flag_keys k n : In k (flag_keys n) <-> exists c flag, k = Code c /\ special c flag /\ N.land (n_flags n) flag <> 0.
Proof.
  unfold flag_keys. rewrite in_flat_map. split.
  - intros ([flag c] & I1 & I2). cbn [fst snd] in I2. unfold has_flag in I2. destruct (N.eqb_spec (N.land (n_flags n) flag) 0); [destruct I2|destruct I2 as [<-|[]]].
    exists c, flag. split; auto. split; auto. now apply flags_special.
  - intros (c & flag & -> & S1 & S2). exists (flag, c). split; [now apply flags_special|]. cbn [fst snd]. unfold has_flag.
    destruct (N.eqb_spec (N.land (n_flags n) flag) 0); [contradiction|now left].
Qed.

Lemma in_keys_of k n : In k (keys_of n) <-> belongs k n.
Proof.
  unfold keys_of. cbn [In]. rewrite in_app_iff, in_flag_keys. destruct k as [c|a]; cbn [belongs].
  - split.
    + intros [E|[E|(c0 & flag & E & S1 & S2)]]; [left; congruence| |right; exists flag; split; congruence].
      destruct (n_asn n =? 0); [destruct E|destruct E as [E|[]]; discriminate].
    + intros [<-|(flag & S1 & S2)]; [now left|]. right. right. eauto.
  - split.
    + intros [E|[E|(c0 & flag & E & _)]]; try discriminate. destruct (N.eqb_spec (n_asn n) 0); [destruct E|destruct E as [E|[]]]. split; congruence.
    + intros [<- Z]. right. left. destruct (N.eqb_spec (n_asn n) 0); [contradiction|now left].
Qed.

Lemma special_invalid c flag : special c flag -> cc_is_valid (Some c) = false.
Proof. intros []; reflexivity. Qed.
Lemma special_flag c f1 f2 : special c f1 -> special c f2 -> f1 = f2.
Proof. intros []; inversion 1; reflexivity. Qed.
Lemma special_cc c flag n : special c flag -> cc_ok (n_cc n) -> get_country_code n <> c.
Proof.
  intros S1 [[Z _]|V] E.
  - unfold get_country_code, cc_str in E. destruct (n_cc n) as [a b]. cbn [fst] in Z. subst a. cbn in E. subst c. inversion S1.
  - unfold get_country_code, cc_str in E. destruct (n_cc n) as [a b]. cbn [fst snd] in *. pose proof (special_invalid _ _ S1) as I1.
    pose proof (cc_valid_two _ V) as (x & y & [= -> ->] & ? & ? & _). replace (x =? 0) with false in E by lia. replace (y =? 0) with false in E by lia. congruence.
Qed.

Lemma keys_nodup n : cc_ok (n_cc n) -> NoDup (keys_of n).
Proof.
  intros C. unfold keys_of. constructor.
  - rewrite in_app_iff, in_flag_keys. intros [E|(c & flag & [= E] & S1 & _)].
    + destruct (n_asn n =? 0); [destruct E|destruct E as [E|[]]; discriminate].
    + exact (special_cc _ _ _ S1 C E).
  - assert (F : NoDup (flag_keys n)).
    { unfold flag_keys, FLAGS. cbn [flat_map fst snd app]. destruct (has_flag n 1 =? 0), (has_flag n 2 =? 0), (has_flag n 4 =? 0), (has_flag n 8 =? 0);
        cbn [app]; repeat constructor; cbn; intuition discriminate. }
    destruct (n_asn n =? 0); cbn [app]; auto. constructor; auto. rewrite in_flag_keys. intros (c & flag & [=] & _).
Qed.

Lemma export_in : forall L ws0, Forall (fun n => cc_ok (n_cc n)) L -> forall k l,
  In (k, l) (fold_left export_one L ws0) <-> exists l0 l1, In (k, l0) ws0 /\ those (belongs k) L l1 /\ l = l0 ++ l1.
Proof.
  induction L as [|n L IH]; intros ws0 C k l; cbn [fold_left].
  - split; [intros H; exists l, []; rewrite app_nil_r; split; [auto|split; [constructor|auto]]|].
    intros (l0 & l1 & I0 & T & ->). inversion T. now rewrite app_nil_r.
  - apply Forall_cons_iff in C as [Cn C]. rewrite IH by auto. rewrite export_one_keys. split.
    + intros (l0 & l1 & I0 & T & ->). apply wwrites_in in I0 as (l2 & I2 & ->); [|now apply keys_nodup].
      exists l2. destruct (in_dec wkey_dec k (keys_of n)) as [X|X]; rewrite in_keys_of in X.
      * exists (n :: l1). split; auto. split; [now constructor|]. rewrite <- app_assoc. reflexivity.
      * exists l1. split; auto. split; [now constructor|]. reflexivity.
    + intros (l0 & l1 & I0 & T & ->).
      assert (W : In (k, if in_dec wkey_dec k (keys_of n) then l0 ++ [n] else l0) (fold_left (fun ws k => wwrite k n ws) (keys_of n) ws0)).
      { apply wwrites_in; [now apply keys_nodup|eauto]. }
      destruct (in_dec wkey_dec k (keys_of n)) as [X|X]; rewrite in_keys_of in X; inversion T; subst; try contradiction.
      * do 2 eexists. split; [exact W|]. split; [eassumption|]. now rewrite <- app_assoc.
      * do 2 eexists. split; [exact W|]. split; [eassumption|reflexivity].
Qed.

(** ** The outputs *)
Lemma new_writer_in ws k k' l : (forall k l, In (k, l) ws -> l = []) ->
  (In (k', l) (new_writer ws k) <-> l = [] /\ (k' = k \/ In (k', []) ws)).
Proof.
  induction ws as [|[k0 l0] ws IH]; intros E; cbn [new_writer].
  - cbn [In]. split; [intros [[= <- <-]|[]]; auto|]. intros [-> [->|[]]]. now left.
  - pose proof (E k0 l0 (or_introl eq_refl)) as ->. assert (E' : forall k l, In (k, l) ws -> l = []) by (intros; eapply E; right; eauto).
    destruct (wkey_eqb k0 k) eqn:Q.
    + apply wkey_eqb_eq in Q. subst k0. cbn [In]. split.
      * intros [[= <- <-]|I1]; auto. pose proof (E' _ _ I1) as ->. auto.
      * intros [-> [->|H]]; auto.
    + cbn [In]. rewrite IH by auto. split.
      * intros [[= <- <-]|(-> & [->|H])]; auto.
      * intros [-> [->|[[= ->]|H]]]; auto 6.
Qed.
Lemma new_writer_nodup ws k : NoDup (map fst ws) -> NoDup (map fst (new_writer ws k)).
Proof.
  induction ws as [|[k0 l0] ws IH]; cbn [new_writer map]; [repeat constructor; auto|]. intros N. apply NoDup_cons_iff in N as [N1 N2]. cbn [fst] in *.
  destruct (wkey_eqb k0 k) eqn:Q; cbn [map fst]; constructor; auto. intros X. apply N1.
  assert (Nq : k0 <> k) by (intros ->; rewrite (proj2 (wkey_eqb_eq k k) eq_refl) in Q; discriminate).
  clear -X Nq. induction ws as [|[k1 l1] ws IH]; cbn [new_writer map fst] in *; [destruct X; [congruence|contradiction]|].
  destruct (wkey_eqb k1 k); cbn [map fst In] in *; tauto.
Qed.

Lemma new_writers_in ks : forall ws k l, (forall k l, In (k, l) ws -> l = []) ->
  (In (k, l) (fold_left new_writer ks ws) <-> l = [] /\ (In k ks \/ In (k, []) ws)).
Proof.
  induction ks as [|k0 ks IH]; intros ws k l E; cbn [fold_left].
  - split; [intros H; pose proof (E _ _ H); subst; cbn; auto|]. intros [-> [[]|H]]; auto.
  - rewrite IH.
    + cbn [In]. rewrite new_writer_in by auto. intuition.
    + intros k1 l1 I1. apply new_writer_in in I1 as [? _]; auto.
Qed.
Lemma new_writers_nodup ks : forall ws, NoDup (map fst ws) -> NoDup (map fst (fold_left new_writer ks ws)).
Proof. induction ks as [|k0 ks IH]; intros ws N; cbn [fold_left]; auto. apply IH. now apply new_writer_nodup. Qed.

Lemma make_writers_in countries asns k l : In (k, l) (make_writers countries asns) <-> l = [] /\ requested countries asns k.
Proof.
  unfold make_writers. rewrite new_writers_in.
  - rewrite new_writers_in by (intros ? ? []). cbn [In]. rewrite !in_map_iff. destruct k as [c|a]; cbn [requested]; split.
    + intros [-> [(x & [=] & _)|[_ [(x & [= <-] & H)|[]]]]]. auto.
    + intros [-> H]. split; auto. right. split; auto. left. eauto.
    + intros [-> [(x & [= <-] & H)|[_ [(x & [=] & _)|[]]]]]. auto.
    + intros [-> H]. split; auto. left. eauto.
  - intros k1 l1 I1. apply new_writers_in in I1 as [? _]; auto. intros ? ? [].
Qed.

Lemma wwrite_keys k n ws : map fst (wwrite k n ws) = map fst ws.
Proof. unfold wwrite. rewrite map_map. apply map_ext. intros [k1 l1]. cbn [fst]. destruct (wkey_eqb k1 k); reflexivity. Qed.
Lemma export_one_fst ws n : map fst (export_one ws n) = map fst ws.
Proof.
  rewrite export_one_keys. revert ws. induction (keys_of n) as [|k ks IH]; intros ws; cbn [fold_left]; auto. now rewrite IH, wwrite_keys.
Qed.

Lemma export_outputs countries asns networks : Forall (fun n => cc_ok (n_cc n)) networks ->
  NoDup (map fst (export_networks countries asns networks)) /\
  (forall k, requested countries asns k <-> exists l, In (k, l) (export_networks countries asns networks)) /\
  forall k l, In (k, l) (export_networks countries asns networks) -> those (belongs k) networks l.
Proof.
  intros C. unfold export_networks. split; [|split].
  - assert (N0 : NoDup (map fst (make_writers countries asns))).
    { unfold make_writers. repeat apply new_writers_nodup. constructor. }
    revert N0. generalize (make_writers countries asns). clear C. induction networks as [|n L IH]; intros ws N; cbn [fold_left]; auto.
    apply IH. now rewrite export_one_fst.
  - intros k. split.
    + intros R. assert (T : exists l1, those (belongs k) networks l1).
      { clear C. induction networks as [|n L [l IH]]; [exists []; constructor|]. destruct (in_dec wkey_dec k (keys_of n)) as [X|X]; rewrite in_keys_of in X.
        - exists (n :: l). now constructor.
        - exists l. now constructor. }
      destruct T as (l1 & T). exists l1. apply export_in; auto. exists [], l1. split; auto. apply make_writers_in. auto.
    + intros (l & H). apply export_in in H as (l0 & l1 & H & _); auto. now apply make_writers_in in H.
  - intros k l H. apply export_in in H as (l0 & l1 & H & T & ->); auto. apply make_writers_in in H as [-> _]. exact T.
Qed.

Lemma those_in {A} (P : A -> Prop) all l : those P all l -> forall x, In x l <-> In x all /\ P x.
Proof.
  induction 1 as [|x all l Px T IH|x all l Px T IH]; intros y; cbn [In].
  - tauto.
  - rewrite IH. split; [intros [->|[? ?]]; auto|]. tauto.
  - rewrite IH. split; [tauto|]. intros [[->|?] ?]; tauto.
Qed.

(** ** The search *)
Lemma is_special_iff c : is_special c = true <-> exists flag, special c flag.
Proof.
  unfold is_special. rewrite existsb_exists. split.
  - intros ([flag c0] & I1 & E). apply cstr_eqb_eq in E. cbn [snd] in E. subst c0. exists flag. now apply flags_special.
  - intros (flag & S1). exists (flag, c). split; [now apply flags_special|]. now apply cstr_eqb_eq.
Qed.

Lemma add_codes_all codes : Forall (fun c => cc_is_valid (Some c) = true) codes -> exists xs,
  map (fun x => cc_str (c_code x)) xs = codes /\ Forall (fun x => two_letters (c_code x)) xs /\
  Forall (fun x => 65 <= fst (c_code x) <= 90 /\ 65 <= snd (c_code x) <= 90 /\ fst (c_code x) <> 88) xs /\
  forall l, add_codes l codes = append_all country_cmp l xs.
Proof.
  induction 1 as [|c codes V _ (xs & E & T & X & IH)]; [exists []; auto|].
  destruct (country_new_spec 0 c V) as (x & N1 & O & Ex & _). exists (x :: xs). cbn [map]. split; [congruence|].
  split; [constructor; auto|]. split.
  - constructor; auto. apply cc_valid_two in V as (a & b & -> & Ha & Hb & Hx). unfold country_ok, two_letters in O. destruct (c_code x) as [u v].
    cbn [fst snd] in *. unfold cc_str in Ex. replace (u =? 0) with false in Ex by lia. replace (v =? 0) with false in Ex by lia.
    injection Ex as -> ->. lia.
  - intros l. cbn [add_codes append_all]. rewrite N1. cbn [bind]. destruct (olist_append country_cmp l x); cbn [bind]; auto.
Qed.
Lemma add_asns_all asns : forall l, add_asns l asns = append_all as_cmp l (map (fun a => as_new 0 (a mod 2 ^ 32)) asns).
Proof.
  induction asns as [|a asns IH]; intros l; [reflexivity|]. cbn [add_asns append_all map].
  destruct (olist_append as_cmp l (as_new 0 (a mod 2 ^ 32))); cbn [bind]; auto.
Qed.

Lemma first_in {A} (key : A -> N) xs : forall seen x, In x (first_occurrences key seen xs) -> In x xs.
Proof.
  induction xs as [|y xs IH]; intros seen x; cbn [first_occurrences In]; auto.
  destruct (existsb _ _); cbn [In]; intuition eauto.
Qed.

Definition number_of (f : family) : Z := match f with AF_INET => 2 | AF_INET6 => 10 end.

Lemma search_ok countries asns f : request_ok countries asns -> exists l e,
  search_networks (country_codes countries) asns (number_of f) = Ok e /\ e = configured Networks true l /\
  Forall setting_ok l /\
  forall n, wanted l n <-> n_family n = f /\ 
     ((get_country_code n <> [] /\ In (get_country_code n) (country_codes countries)) \/ In (n_asn n) asns).
Proof.
  intros [R1 R2]. assert (Vc : Forall (fun c => cc_is_valid (Some c) = true) (country_codes countries)).
  { apply Forall_forall. intros c I1. apply filter_In in I1 as [I1 I2]. rewrite Forall_forall in R1. destruct (R1 _ I1) as [|X]; auto.
    apply is_special_iff in X. rewrite X in I2. discriminate. }
  destruct (add_codes_all _ Vc) as (xs & Exs & T & X88 & Add).
  destruct (country_list_facts xs T) as (cl & Ec & Fc & _ & Hc & Dc & _).
  destruct (as_list_facts (map (fun a => as_new 0 (a mod 2 ^ 32)) asns)) as (al & Ea & Fa & _ & Ha & _).
  exists [SetCountries cl; SetAsns al; SetFamily (number_of f)]. eexists. split; [|split; [reflexivity|split]].
  - unfold search_networks. rewrite Add, Ec. cbn [bind]. rewrite add_asns_all, Ea. cbn [bind]. 
    replace (number_of f =? 0)%Z with false by (destruct f; reflexivity). reflexivity.
  - constructor; [|repeat constructor]. cbn [setting_ok]. rewrite Fc. apply Forall_forall. intros x I1. apply first_in in I1.
    rewrite Forall_forall in X88. exact (X88 _ I1).
  - intros n. unfold wanted, the_family, the_countries, the_asns, the_flags. cbn [fold_left].
    assert (Mc : forall s, s <> [] -> (In s (map (fun x => cc_str (c_code x)) (ol_elems cl)) <-> In s (country_codes countries))).
    { intros s _. rewrite <- Exs. rewrite Fc. rewrite !in_map_iff. split.
      - intros (x & E & I1). apply first_in in I1. eauto.
      - intros (x & E & I1). assert (V : cc_is_valid (Some s) = true).
        { rewrite Forall_forall in Vc. apply Vc. rewrite <- Exs. apply in_map_iff. eauto. }
        pose proof (proj2 (Hc s) (conj V (ex_intro _ x (conj I1 E)))) as C. clear -C V T Fc.
        unfold country_list_contains_code in C. destruct (country_new_spec 0 s V) as (y & Ey & Oy & Cy & _). rewrite Ey in C.
        injection C as C. unfold olist_contains in C. apply existsb_exists in C as (z & I1 & Z). rewrite Fc in I1.
        exists z. split; auto. rewrite <- Cy. assert (Oz : country_ok z) by (rewrite Forall_forall in T; apply T; now apply first_in in I1).
        rewrite country_cmp_key in Z by auto. f_equal. apply code_number_inj; auto.
        unfold three in Z. change (code_number (c_code z)) with (country_key z). change (code_number (c_code y)) with (country_key y).
        destruct (N.compare_spec (country_key y) (country_key z)); congruence || discriminate. }
    assert (Ma : forall a, In a (map as_number (ol_elems al)) <-> In a asns).
    { intros a. specialize (Ha a). rewrite has_asn, existsb_exists in Ha. rewrite map_map in Ha. cbn [as_new as_number] in Ha.
      transitivity (In a (map (fun x => x mod 2 ^ 32) asns)).
      - rewrite <- Ha. split; [intros I1; exists a; split; [auto|apply N.eqb_refl]|]. intros (x & I1 & E). apply N.eqb_eq in E. now subst.
      - rewrite in_map_iff. rewrite Forall_forall in R2. split.
        + intros (x & <- & I1). rewrite N.mod_small by (apply R2; auto). auto.
        + intros I1. exists a. split; auto. apply N.mod_small. apply R2. auto. }
    split.
    + intros [[F|F] W]; [destruct f; discriminate F|]. split; [destruct f, (n_family n); auto; discriminate F|].
      destruct W as [(A & _)|[(c & [= <-] & Z & I1)|[(a & [= <-] & I1)|Z]]]; [discriminate A| | |].
      * left. split; auto. now apply Mc.
      * right. now apply Ma.
      * exfalso. apply Z. apply N.land_0_r.
    + intros [<- W]. split; [right; destruct (n_family n); reflexivity|]. right. destruct W as [[Z I1]|I1].
      * left. eexists. split; [reflexivity|]. split; auto. now apply Mc.
      * right. left. eexists. split; [reflexivity|]. now apply Ma.
Qed.

Lemma selected_iff countries asns n : request_ok countries asns -> cc_ok (n_cc n) ->
  selected countries asns n <->
  (get_country_code n <> [] /\ In (get_country_code n) (country_codes countries)) \/ In (n_asn n) asns.
Proof.
  intros [R1 R2] C. unfold selected. rewrite Forall_forall in R1, R2. split.
  - intros ([c|a] & Rk & Ok1 & B); cbn [requested ordinary_key belongs] in *.
    + destruct B as [B|(flag & S1 & _)]; [|destruct (Ok1 _ S1)]. left. subst c. split.
      * intros E. destruct (R1 _ Rk) as [V|[flag S1]]; [rewrite E in V; discriminate V|exact (Ok1 _ S1)].
      * apply filter_In. split; auto. destruct (is_special (get_country_code n)) eqn:Q; auto. apply is_special_iff in Q as [flag S1]. destruct (Ok1 _ S1).
    + destruct B as [<- _]. auto.
  - intros [[Z I1]|I1].
    + apply filter_In in I1 as [I1 I2]. exists (Code (get_country_code n)). cbn [requested ordinary_key belongs]. split; auto. split; auto.
      intros flag S1. rewrite (proj2 (is_special_iff _)) in I2 by eauto. discriminate.
    + exists (Asn (n_asn n)). cbn [requested ordinary_key belongs]. split; auto. split; auto. split; auto. pose proof (R2 _ I1). lia.
Qed.

Lemma belongs_attrs k x y : attrs x = attrs y -> belongs k x -> belongs k y.
Proof. unfold attrs, belongs. intros [= E1 E2 E3]. destruct k; now rewrite ?E1, ?E2, ?E3. Qed.

Lemma those_after (P : network -> Prop) all l : those P all l -> one_after_another all -> one_after_another l.
Proof.
  unfold one_after_another. induction 1 as [|x all l Px T IH|x all l Px T IH]; intros O; auto.
  - apply Sorted.StronglySorted_inv in O as [O1 O2]. constructor; auto. apply Forall_forall. intros y Iy. rewrite Forall_forall in O2. apply O2.
    eapply those_in in Iy; eauto. tauto.
  - apply Sorted.StronglySorted_inv in O as [O1 O2]. auto.
Qed.

Section Props.
Variables (ctz0 : nat) (held : network -> bool) (key1 key2 : option evp).
Variables (os : list call) (w : writer) (x : save) (w' : writer) (f : list N) (d : db).
Hypothesis Call : Forall call_ok os.
Hypothesis Prog : program ctz0 held key1 key2 os = Ok w.
Hypothesis Write : write_to ctz0 held key1 key2 w x = Ok (0%Z, w', f).
Hypothesis Size : N.of_nat (length f) < 2 ^ 32.
Hypothesis Now : s_now x < 2 ^ 64.
Hypothesis Open : db_open f = Ok d.
Hypothesis NoSave : Forall no_save os.

Lemma export_list beyond old countries asns fam : request_ok countries asns -> ordinary (given os) ->
  exists st e L f0, search_networks (country_codes countries) asns (number_of fam) = Ok e /\ e = configured Networks true st /\
    (forall fuel, (f0 <= fuel)%nat -> enumerates (next_network beyond d fuel old) e L) /\
    let ws := export_networks countries asns L in
    NoDup (map fst ws) /\ (forall k, requested countries asns k <-> exists l, In (k, l) ws) /\
    forall k l, In (k, l) ws -> Forall (fun n => valid_network n /\ n_family n = fam) l /\ one_after_another l /\
      forall v at_, v < 2 ^ 128 ->
      (exists z, In z l /\ member z v /\ attrs z = at_) <->
      (exists y, most_specific (given os) v y /\ n_family y = fam /\ selected countries asns (as_read y) /\
         belongs k (as_read y) /\ attrs (as_read y) = at_).
Proof.
  intros R O. destruct (search_ok countries asns fam R) as (st & e & Es & Ee & Sok & W).
  destruct (flat_meaning _ _ _ _ _ _ _ _ _ _ Call Prog Write Size Now Open NoSave beyond old st Sok O) as (L & f0 & En & V & A & H).
  assert (Cc : Forall (fun n => cc_ok (n_cc n)) L).
  { eapply Forall_impl; [|exact V]. intros n Vn. apply valid_net_wf in Vn. apply Vn. }
  assert (Fam : forall z, In z L -> n_family z = fam).
  { intros z Iz. rewrite Forall_forall in V. pose proof (V z Iz) as Vz. pose proof (proj1 (valid_net_wf z) Vz) as Wz.
    assert (Mz : member z (num (n_first z))) by (destruct Vz as [F0 L0 P0 A0 _ _ _ _ _]; apply (A0 (num (n_first z))); [apply (lo_bound z Wz)|intros i _ _; reflexivity]).
    destruct (proj1 (H (num (n_first z)) (n_family z) (attrs z) (lo_bound z Wz))) as (y & Y & Wy & Fy & _); [exists z; auto|].
    apply W in Wy as [Wy _]. change (n_family (as_read y)) with (n_family y) in Wy. congruence. }
  destruct (export_outputs countries asns L Cc) as (N1 & K & T).
  exists st, e, L, f0. split; [exact Es|]. split; [exact Ee|]. split; [rewrite Ee; exact En|]. cbv zeta.
  split; [exact N1|]. split; [exact K|]. intros k l I1. pose proof (T k l I1) as Tk. pose proof (those_in _ _ _ Tk) as In1.
  split; [|split].
  - apply Forall_forall. intros z Iz. rewrite Forall_forall in V. apply In1 in Iz as [Iz _]. auto.
  - eapply those_after; eauto.
  - intros v at_ B. pose proof (H v fam at_ B) as Hv. split.
    + intros (z & Iz & Mz & Az). apply In1 in Iz as [Iz Bz].
      destruct (proj1 Hv) as (y & Y & Wy & Fy & Ay); [exists z; auto|].
      exists y. apply W in Wy as [_ Wy]. split; [exact Y|]. split; [exact Fy|]. split; [|split; [|exact Ay]].
      * apply selected_iff; auto. apply as_read_cc. eapply given_wf; [exact Call|exact Prog|exact NoSave|]. apply Y.
      * eapply belongs_attrs; [|exact Bz]. now rewrite Ay, Az.
    + intros (y & Y & Fy & Sy & By & Ay). destruct (proj2 Hv) as (z & Iz & Mz & Fz & Az).
      * exists y. split; [exact Y|]. split; [|split; [exact Fy|exact Ay]]. apply W. split; [exact Fy|].
        apply selected_iff; auto. apply as_read_cc. eapply given_wf; [exact Call|exact Prog|exact NoSave|]. apply Y.
      * exists z. split; [|auto]. apply In1. split; [exact Iz|]. eapply belongs_attrs; [|exact By]. now rewrite Ay, Az.
Qed.

Lemma export_db beyond old countries asns fam : request_ok countries asns -> ordinary (given os) ->
  exists ws f0, (forall fuel, (f0 <= fuel)%nat -> exports (next_network beyond d fuel old) fam countries asns ws) /\
    NoDup (map fst ws) /\ (forall k, requested countries asns k <-> exists l, In (k, l) ws) /\
    forall k l, In (k, l) ws -> Forall (fun n => valid_network n /\ n_family n = fam) l /\ one_after_another l /\
      forall v at_, v < 2 ^ 128 ->
      (exists z, In z l /\ member z v /\ attrs z = at_) <->
      (exists y, most_specific (given os) v y /\ n_family y = fam /\ selected countries asns (as_read y) /\
         belongs k (as_read y) /\ attrs (as_read y) = at_).
Proof.
  intros R O. destruct (export_list beyond old countries asns fam R O) as (st & e & L & f0 & Es & _ & En & H).
  exists (export_networks countries asns L), f0. split; [|exact H].
  intros fuel Hf. exists e, L. split; [exact Es|]. split; [apply En; exact Hf|reflexivity].
Qed.

(** For the outputs of countries and ASes the second condition says nothing. *)
Lemma export_ordinary beyond old countries asns fam : request_ok countries asns -> ordinary (given os) ->
  exists ws f0, (forall fuel, (f0 <= fuel)%nat -> exports (next_network beyond d fuel old) fam countries asns ws) /\
    forall k, requested countries asns k -> ordinary_key k -> exists l, In (k, l) ws /\
      (forall v at_, v < 2 ^ 128 ->
      (exists z, In z l /\ member z v /\ attrs z = at_) <->
      (exists y, most_specific (given os) v y /\ n_family y = fam /\ belongs k (as_read y) /\ attrs (as_read y) = at_)).
Proof.
  intros R O. destruct (export_db beyond old countries asns fam R O) as (ws & f0 & E & _ & K & H). exists ws, f0. split; [exact E|].
  intros k Rk Ok1. destruct (proj1 (K k) Rk) as (l & I1). exists l. split; [exact I1|]. destruct (H k l I1) as (_ & _ & Hk).
  intros v at_ B. rewrite (Hk v at_ B). split.
  - intros (y & Y & Fy & _ & By & Ay). exists y. auto.
  - intros (y & Y & Fy & By & Ay). exists y. split; [exact Y|]. split; [exact Fy|]. split; [exists k; auto|]. auto.
Qed.
End Props.
