(** AS and country lists. *)
From Coq Require Import NArith ZArith List Bool Arith Lia ZifyBool ZifyNat ZifyN Permutation Sorting.Sorted.
From Verif Require Import Base ModelCountryCode ModelObjects SpecObjects.
Import ListNotations.
Open Scope N_scope.

Definition three (c : comparison) : Z := match c with Lt => -1 | Eq => 0 | Gt => 1 end%Z.

Section Generic.
Context {A : Type}.
Variable cmp : A -> A -> Z.
Variable key : A -> N.
Variable ok : A -> Prop.
Hypothesis cmp_key : forall a b, ok a -> ok b ->
  cmp a b = three (key a ?= key b).

Lemma cmp_0 a b : ok a -> ok b -> (cmp a b =? 0)%Z = (key a =? key b).
Proof. intros Ha Hb. rewrite cmp_key by auto. unfold three. destruct (N.compare_spec (key a) (key b)); lia. Qed.
Lemma cmp_le a b : ok a -> ok b -> (cmp a b <=? 0)%Z = (key a <=? key b).
Proof. intros Ha Hb. rewrite cmp_key by auto. unfold three. destruct (N.compare_spec (key a) (key b)); lia. Qed.

Definition list_ok (l : olist A) : Prop :=
  Forall ok (ol_elems l) /\ NoDup (map key (ol_elems l)) /\ N.of_nat (length (ol_elems l)) <= ol_cap l.

Lemma existsb_cmp x l : ok x -> Forall ok l ->
  existsb (fun e => (cmp x e =? 0)%Z) l = existsb (N.eqb (key x)) (map key l).
Proof.
  intros Hx H. induction H as [|y l Hy H IH]; cbn [existsb map]; auto. now rewrite cmp_0, IH by auto.
Qed.

Lemma existsb_eqb k l : existsb (N.eqb k) l = true <-> In k l.
Proof.
  rewrite existsb_exists. split; [intros (y & I & E)|intros I; exists k; split; auto; lia].
  apply N.eqb_eq in E. now subst.
Qed.

Lemma append_new l x : list_ok l -> ok x -> ~ In (key x) (map key (ol_elems l)) ->
  exists l', olist_append cmp l x = Ok l' /\ ol_elems l' = ol_elems l ++ [x] /\ list_ok l'.
Proof.
  intros (H1 & H2 & H3) Hx N. unfold olist_append, olist_contains. rewrite existsb_cmp by auto.
  destruct (existsb _ _) eqn:E; [now apply existsb_eqb in E|].
  set (l1 := if ol_cap l <=? _ then _ else _).
  assert (L : ol_elems l1 = ol_elems l /\ N.of_nat (length (ol_elems l)) < ol_cap l1).
  { subst l1. unfold olist_size. destruct (N.leb_spec (ol_cap l) (N.of_nat (length (ol_elems l)))); [|auto].
    unfold olist_grow. cbn [ol_elems ol_cap]. split; auto. destruct (N.ltb_spec (ol_cap l * 2) 1024); lia. }
  destruct L as [L1 L2]. unfold olist_size. rewrite L1.
  replace (ol_cap l1 <=? _) with false by lia. eexists. split; [reflexivity|]. cbn [ol_elems ol_cap].
  split; auto. split; [|split]; cbn [ol_elems ol_cap].
  - apply Forall_app; auto.
  - rewrite map_app. cbn [map]. apply (Permutation_NoDup (Permutation_cons_append _ _)). now constructor.
  - rewrite app_length. cbn [length]. lia.
Qed.

Lemma append_old l x : list_ok l -> ok x -> In (key x) (map key (ol_elems l)) -> olist_append cmp l x = Ok l.
Proof.
  intros (H1 & H2 & H3) Hx N. unfold olist_append, olist_contains. rewrite existsb_cmp by auto.
  now replace (existsb _ _) with true by (symmetry; now apply existsb_eqb).
Qed.

Lemma first_ext xs : forall s s', (forall k, In k s <-> In k s') ->
  first_occurrences key s xs = first_occurrences key s' xs.
Proof.
  induction xs as [|x xs IH]; intros s s' H; cbn [first_occurrences]; auto.
  replace (existsb (N.eqb (key x)) s') with (existsb (N.eqb (key x)) s).
  2:{ apply Bool.eq_iff_eq_true. rewrite !existsb_eqb. apply H. }
  rewrite (IH s s' H). destruct (existsb _ _); auto. f_equal. apply IH. intros k. cbn [In]. now rewrite H.
Qed.

Lemma append_all_spec xs : forall l, list_ok l -> Forall ok xs ->
  exists l', append_all cmp l xs = Ok l' /\ list_ok l' /\
    ol_elems l' = ol_elems l ++ first_occurrences key (map key (ol_elems l)) xs.
Proof.
  induction xs as [|x xs IH]; intros l L H; cbn [append_all first_occurrences].
  - exists l. split; auto. split; auto. now rewrite app_nil_r.
  - inversion H as [|? ? Hx Hxs]; subst. destruct (existsb _ _) eqn:E.
    + rewrite (append_old l x) by (auto; now apply existsb_eqb). cbn [bind]. auto.
    + assert (NI : ~ In (key x) (map key (ol_elems l))) by (rewrite <- existsb_eqb, E; discriminate).
      destruct (append_new l x L Hx NI) as (l1 & -> & E1 & L1). cbn [bind].
      destruct (IH l1 L1 Hxs) as (l' & -> & L' & E'). exists l'. split; auto. split; auto.
      rewrite E', E1, <- app_assoc. cbn [app]. do 2 f_equal. apply first_ext. intros k.
      rewrite map_app, in_app_iff. cbn [map In]. tauto.
Qed.

Lemma first_in xs : forall s k, In k (map key (first_occurrences key s xs)) <-> In k (map key xs) /\ ~ In k s.
Proof.
  induction xs as [|x xs IH]; intros s k; cbn [first_occurrences map In]; [tauto|].
  destruct (existsb (N.eqb (key x)) s) eqn:E.
  - rewrite IH. apply existsb_eqb in E. split; [tauto|]. intros [[<-|H] H2]; tauto.
  - assert (NI : ~ In (key x) s) by (rewrite <- existsb_eqb, E; discriminate).
    cbn [map In]. rewrite IH. cbn [In]. destruct (N.eq_dec (key x) k) as [<-|]; tauto.
Qed.

Lemma isert_perm x l : Permutation (isert cmp x l) (x :: l).
Proof.
  induction l as [|y l IH]; cbn [isert]; auto. destruct (cmp x y <=? 0)%Z; auto.
  eapply perm_trans; [apply perm_skip, IH|apply perm_swap].
Qed.
Lemma isort_perm l : Permutation (isort cmp l) l.
Proof.
  induction l as [|x l IH]; cbn [isort fold_right]; auto.
  eapply perm_trans; [apply isert_perm|]. now apply perm_skip.
Qed.

Lemma isert_sorted x l : ok x -> Forall ok l -> ~ In (key x) (map key l) -> ascending key l -> ascending key (isert cmp x l).
Proof.
  unfold ascending. intros Hx H. revert Hx. induction H as [|y l Hy H IH]; intros Hx N Q; cbn [isert].
  - repeat constructor.
  - inversion Q as [|? ? Q1 Q2]; subst. rewrite cmp_le by auto. cbn [map In] in N.
    destruct (N.leb_spec (key x) (key y)) as [L|L].
    + constructor; auto. constructor; [assert (key y <> key x) by tauto; lia|].
      eapply Forall_impl; [|exact Q2]. cbv beta. intros z Hz. lia.
    + constructor; [apply IH; tauto|].
      eapply Permutation_Forall; [apply Permutation_sym, isert_perm|]. constructor; auto.
Qed.

Lemma isort_sorted l : Forall ok l -> NoDup (map key l) -> ascending key (isort cmp l).
Proof.
  intros H. induction H as [|x l Hx H IH]; intros N; cbn [isort fold_right]; [constructor|].
  inversion N as [|? ? N1 N2]; subst. apply isert_sorted; auto.
  - eapply Permutation_Forall; [apply Permutation_sym, isort_perm|exact H].
  - intros I. apply N1. eapply Permutation_in; [apply Permutation_map, isort_perm|exact I].
Qed.

Lemma sorted_unique l : forall l', ascending key l -> Permutation l l' ->
  StronglySorted (fun x y => (cmp x y <= 0)%Z) l' -> Forall ok l -> l' = l.
Proof.
  induction l as [|x l IH]; intros l' Q P C O.
  - now apply Permutation_nil in P.
  - inversion Q as [|? ? Q1 Q2]; subst. inversion O as [|? ? O1 O2]; subst.
    destruct l' as [|y l']; [now apply Permutation_sym, Permutation_nil in P|].
    inversion C as [|? ? C1 C2]; subst.
    assert (E : y = x).
    { assert (I : In y (x :: l)) by (eapply Permutation_in; [apply Permutation_sym, P|now left]).
      destruct I as [->|I]; auto. exfalso.
      assert (I' : In x (y :: l')) by (eapply Permutation_in; [exact P|now left]).
      rewrite Forall_forall in Q2, O2, C2. specialize (Q2 y I). destruct I' as [->|I']; [lia|].
      specialize (C2 x I'). rewrite cmp_key in C2 by auto. unfold three in C2. destruct (N.compare_spec (key y) (key x)); lia. }
    subst y. f_equal. apply IH; auto. now apply Permutation_cons_inv in P.
Qed.

Lemma contains_iff l x : list_ok l -> ok x -> olist_contains cmp l x = true <-> In (key x) (map key (ol_elems l)).
Proof. intros (H & _) Hx. unfold olist_contains. rewrite existsb_cmp by auto. apply existsb_eqb. Qed.

Lemma sort_ok l : list_ok l -> list_ok (olist_sort cmp l) /\ ascending key (ol_elems (olist_sort cmp l)) /\
  Permutation (ol_elems (olist_sort cmp l)) (ol_elems l).
Proof.
  intros (H1 & H2 & H3). unfold olist_sort. cbn [ol_elems ol_cap]. pose proof (isort_perm (ol_elems l)) as P.
  split; [split; [|split]|split; auto]; cbn [ol_elems ol_cap].
  - eapply Permutation_Forall; [apply Permutation_sym, P|auto].
  - eapply Permutation_NoDup; [apply Permutation_map, Permutation_sym, P|auto].
  - now rewrite (Permutation_length P).
  - now apply isort_sorted.
Qed.

Lemma new_ok : list_ok olist_new.
Proof. split; [constructor|split; [constructor|]]. cbn. lia. Qed.

(** All of C46 for one kind of objects *)
Lemma list_facts xs : Forall ok xs ->
  exists l, append_all cmp olist_new xs = Ok l /\
    ol_elems l = first_occurrences key [] xs /\
    N.of_nat (length (ol_elems l)) <= ol_cap l /\
    (forall x, ok x -> olist_contains cmp l x = true <-> In (key x) (map key xs)) /\
    ascending key (ol_elems (olist_sort cmp l)) /\ Permutation (ol_elems (olist_sort cmp l)) (ol_elems l) /\
    (forall l', Permutation (ol_elems l) l' -> StronglySorted (fun x y => (cmp x y <= 0)%Z) l' ->
       l' = ol_elems (olist_sort cmp l)).
Proof.
  intros H. destruct (append_all_spec xs olist_new new_ok H) as (l & E & L & F). cbn [ol_elems app map olist_new] in F.
  destruct (sort_ok l L) as (L' & A' & P').
  exists l. split; auto. split; auto. split; [apply L|]. split.
  - intros x Hx. rewrite contains_iff by auto. rewrite F, first_in. cbn [In]. tauto.
  - split; auto. split; auto. intros l' P C. apply sorted_unique; auto; [|apply L'].
    eapply perm_trans; eauto.
Qed.
End Generic.

Lemma as_cmp_key a b : True -> True -> as_cmp a b = three (as_number a ?= as_number b).
Proof.
  intros _ _. unfold as_cmp, three. destruct (N.compare_spec (as_number a) (as_number b)) as [E|E|E].
  - now rewrite E, N.ltb_irrefl.
  - replace (as_number b <? as_number a) with false by lia. now replace (as_number a <? as_number b) with true by lia.
  - now replace (as_number b <? as_number a) with true by lia.
Qed.

Definition country_ok (c : country) : Prop := two_letters (c_code c).
Definition country_key (c : country) : N := code_number (c_code c).
Lemma country_cmp_key a b : country_ok a -> country_ok b ->
  country_cmp a b = three (country_key a ?= country_key b).
Proof.
  unfold country_ok, country_key, country_cmp, two_letters, code_number.
  destruct (c_code a) as [a0 a1], (c_code b) as [b0 b1]. cbn [fst snd]. intros [A1 A2] [B1 B2]. unfold cc_cmp, three.
  destruct (N.ltb_spec a0 b0); [destruct (N.compare_spec (256 * a0 + a1) (256 * b0 + b1)); lia|].
  destruct (N.ltb_spec b0 a0); [destruct (N.compare_spec (256 * a0 + a1) (256 * b0 + b1)); lia|].
  destruct (N.ltb_spec a1 b1); [destruct (N.compare_spec (256 * a0 + a1) (256 * b0 + b1)); lia|].
  destruct (N.ltb_spec b1 a1); destruct (N.compare_spec (256 * a0 + a1) (256 * b0 + b1)); lia.
Qed.

Lemma code_number_inj c d : two_letters c -> two_letters d -> code_number c = code_number d -> c = d.
Proof.
  unfold two_letters, code_number. destruct c as [c0 c1], d as [d0 d1]. cbn [fst snd]. intros. f_equal; lia.
Qed.

Lemma cc_valid_two s : cc_is_valid (Some s) = true -> exists a b, s = [a; b] /\ 65 <= a <= 90 /\ 65 <= b <= 90 /\ a <> 88.
Proof.
  unfold cc_is_valid. destruct s as [|a [|b [|c s]]]; try discriminate. cbn [length Nat.eqb negb existsb chr nth].
  destruct (N.ltb_spec a 65), (N.ltb_spec 90 a), (N.ltb_spec b 65), (N.ltb_spec 90 b); try discriminate. cbn [orb].
  destruct (N.eqb_spec a 88); try discriminate. intros _. exists a, b. repeat split; auto.
Qed.

Lemma country_new_spec id s : cc_is_valid (Some s) = true ->
  exists c, country_new id (Some s) = Ok c /\ country_ok c /\ cc_str (c_code c) = s /\ c_id c = id /\
    c_continent c = (0, 0) /\ c_name c = NoName.
Proof.
  intros V. unfold country_new. rewrite V. cbn [negb]. eexists. split; [reflexivity|].
  apply cc_valid_two in V as (a & b & -> & Ha & Hb & _). cbn [c_code c_id c_continent c_name cc_copy chr nth].
  unfold cc_copy, chr. cbn [nth].
  split; [unfold country_ok, two_letters; cbn [fst snd c_code]; lia|]. unfold cc_str.
  replace (a =? 0) with false by lia. replace (b =? 0) with false by lia. auto.
Qed.

Lemma as_list_facts xs : exists l, append_all as_cmp olist_new xs = Ok l /\
    ol_elems l = first_occurrences as_number [] xs /\
    N.of_nat (length (ol_elems l)) <= ol_cap l /\
    (forall n, as_list_contains_number l n = true <-> In n (map as_number xs)) /\
    (forall x, olist_contains as_cmp l x = true <-> In (as_number x) (map as_number xs)) /\
    ascending as_number (ol_elems (olist_sort as_cmp l)) /\ Permutation (ol_elems (olist_sort as_cmp l)) (ol_elems l).
Proof.
  destruct (list_facts as_cmp as_number (fun _ => True) as_cmp_key xs) as (l & E & F & C & I & Q & P & _).
  { now apply Forall_forall. }
  exists l. split; auto. split; auto. split; auto. split; [|split; auto]. intros n. now apply (I (as_new 0 n)).
Qed.

Lemma as_sort_unique xs l l' : append_all as_cmp olist_new xs = Ok l ->
  Permutation (ol_elems l) l' -> StronglySorted (fun x y => (as_cmp x y <= 0)%Z) l' ->
  l' = ol_elems (olist_sort as_cmp l).
Proof.
  destruct (list_facts as_cmp as_number (fun _ => True) as_cmp_key xs) as (l0 & E & _ & _ & _ & _ & _ & U).
  { now apply Forall_forall. }
  rewrite E. intros [= <-]. apply U.
Qed.

Lemma country_list_facts xs : Forall (fun c => two_letters (c_code c)) xs ->
  exists l, append_all country_cmp olist_new xs = Ok l /\
    ol_elems l = first_occurrences (fun c => code_number (c_code c)) [] xs /\
    N.of_nat (length (ol_elems l)) <= ol_cap l /\
    (forall s, country_list_contains_code l (Some s) = Ok true <->
       cc_is_valid (Some s) = true /\ exists x, In x xs /\ cc_str (c_code x) = s) /\
    (forall s, country_list_contains_code l (Some s) = Ok true \/ country_list_contains_code l (Some s) = Ok false) /\
    ascending (fun c => code_number (c_code c)) (ol_elems (olist_sort country_cmp l)) /\
    Permutation (ol_elems (olist_sort country_cmp l)) (ol_elems l).
Proof.
  intros O. destruct (list_facts country_cmp country_key country_ok country_cmp_key xs O) as (l & E & F & C & I & Q & P & _).
  exists l. split; auto. split; auto. split; auto. split; [|split; [|split; auto]].
  - intros s. unfold country_list_contains_code. destruct (cc_is_valid (Some s)) eqn:V.
    + destruct (country_new_spec 0 s V) as (c & -> & Oc & Ec & _). split.
      * intros [= H]. split; auto. apply I in H; auto. apply in_map_iff in H as (x & H1 & H2). exists x. split; auto.
        rewrite Forall_forall in O. rewrite <- Ec. f_equal. apply code_number_inj; auto.
      * intros (_ & x & H1 & H2). f_equal. apply I; auto. apply in_map_iff. exists x. split; auto.
        unfold country_key. f_equal. assert (Ox : country_ok x) by (rewrite Forall_forall in O; now apply O).
        clear - H2 Ec Oc Ox. unfold country_ok, two_letters in *. destruct (c_code x) as [a b], (c_code c) as [a' b'].
        cbn [fst snd] in *. unfold cc_str in *. replace (a =? 0) with false in H2 by lia.
        replace (b =? 0) with false in H2 by lia. replace (a' =? 0) with false in Ec by lia.
        replace (b' =? 0) with false in Ec by lia. rewrite <- Ec in H2. injection H2 as -> ->. reflexivity.
    + unfold country_new. rewrite V. cbn [negb]. split; [discriminate|]. intros [? _]. discriminate.
  - intros s. unfold country_list_contains_code, country_new. destruct (cc_is_valid (Some s)); cbn [negb].
    + destruct (olist_contains country_cmp l _); auto.
    + auto.
Qed.

Lemma country_sort_unique xs l l' : Forall (fun c => two_letters (c_code c)) xs ->
  append_all country_cmp olist_new xs = Ok l ->
  Permutation (ol_elems l) l' -> StronglySorted (fun x y => (country_cmp x y <= 0)%Z) l' ->
  l' = ol_elems (olist_sort country_cmp l).
Proof.
  intros O. destruct (list_facts country_cmp country_key country_ok country_cmp_key xs O) as (l0 & E & _ & _ & _ & _ & _ & U).
  rewrite E. intros [= <-]. apply U.
Qed.

(** Names of countries *)
Lemma set_names_spec names : forall c, c_name c <> Dangling -> ~ In None names ->
  exists c', set_names c names = Ok c' /\ c_code c' = c_code c /\
    country_get_name c' = Ok (last names (match c_name c with Name s => Some s | _ => None end)) /\
    country_free c' = Ok tt.
Proof.
  induction names as [|[s|] names IH]; intros c D N; cbn [set_names].
  - exists c. split; auto. split; auto. unfold country_get_name, country_free. destruct (c_name c); auto. congruence.
  - cbn [In] in N. assert (E : country_set_name c (Some s) = Ok (mkCountry (c_id c) (c_code c) (c_continent c) (Name s))).
    { unfold country_set_name. destruct (c_name c); auto. congruence. }
    rewrite E. cbn [bind]. destruct (IH (mkCountry (c_id c) (c_code c) (c_continent c) (Name s))) as (c' & -> & C & G & F).
    { discriminate. } { tauto. }
    exists c'. split; auto. split; auto. split; auto. rewrite G. cbn [c_name]. f_equal.
    destruct names as [|n' names]; auto. clear. revert n'.
    induction names as [|n2 names IH]; intros n'; auto. exact (IH n2).
  - exfalso. apply N. now left.
Qed.

Lemma set_names_new id s names c : country_new id (Some s) = Ok c -> ~ In None names ->
  exists c', set_names c names = Ok c' /\ c_code c' = c_code c /\
    country_get_name c' = Ok (last names None) /\ country_free c' = Ok tt.
Proof.
  unfold country_new. destruct (negb _); [discriminate|]. intros [= <-] N.
  now apply (set_names_spec names (mkCountry id (cc_copy s) (0, 0) NoName)).
Qed.

Definition adjacent (names : list (option cstr)) : Prop := exists a x b, names = a ++ Some x :: None :: b.

Lemma adjacent_cons n names : adjacent (n :: names) <->
  adjacent names \/ (n <> None /\ exists b, names = None :: b).
Proof.
  split.
  - intros ([|m a] & x & b & E); cbn [app] in E; injection E as -> ->; [right|left].
    + split; [discriminate|]. now exists b.
    + now exists a, x, b.
  - intros [(a & x & b & ->)|[N [b ->]]].
    + now exists (n :: a), x, b.
    + destruct n as [x|]; [|congruence]. now exists [], x, b.
Qed.

Lemma set_names_gen names : forall c,
  (exists c', set_names c names = Ok c' /\ country_free c' = Ok tt) <->
  c_name c <> Dangling /\ ~ adjacent (match c_name c with Name s => Some s :: names | _ => names end).
Proof.
  induction names as [|n names IH]; intros c; cbn [set_names].
  - unfold country_free. split.
    + intros (c' & [= <-] & F). destruct (c_name c); try discriminate F.
      * split; [discriminate|]. intros ([|? ?] & ? & ? & ?); discriminate.
      * split; [discriminate|]. intros ([|? [|? ?]] & ? & ? & ?); discriminate.
    + intros [D _]. exists c. split; auto. destruct (c_name c); congruence.
  - destruct (c_name c) as [|s|] eqn:Q.
    + destruct n as [x|]; unfold country_set_name; rewrite Q; cbn [bind]; rewrite IH; cbn [c_name].
      * split; intros [_ H]; (split; [discriminate|exact H]).
      * rewrite (adjacent_cons None). split; intros [_ H]; (split; [discriminate|]); [|tauto].
        intros [H'|[H' _]]; [tauto|congruence].
    + rewrite adjacent_cons. destruct n as [x|]; unfold country_set_name; rewrite Q; cbn [bind]; rewrite IH; cbn [c_name].
      * split; intros [_ H]; (split; [discriminate|]).
        -- intros [H'|[_ [b H']]]; [tauto|discriminate].
        -- tauto.
      * split; [intros [H _]; congruence|]. intros [_ H]. exfalso. apply H. right. split; [discriminate|]. now exists names.
    + unfold country_set_name. rewrite Q. cbn [bind]. split; [intros (? & ? & _); discriminate|intros [? _]; congruence].
Qed.

Lemma set_names_iff id s names c : country_new id (Some s) = Ok c ->
  (exists c', set_names c names = Ok c' /\ country_free c' = Ok tt) <->
  ~ exists a x b, names = a ++ Some x :: None :: b.
Proof.
  unfold country_new. destruct (negb _); [discriminate|]. intros [= <-]. rewrite set_names_gen. cbn [c_name].
  split; [tauto|]. intros H. split; [discriminate|exact H].
Qed.
