(** What the bindings return for databases that were written. *)
From Coq Require Import String.
From Coq Require Import NArith ZArith List Bool Arith Lia ZifyBool ZifyNat ZifyN.
From Verif Require Import Base LemmasBase ModelAddress LemmasAddress ModelCountryCode ModelNetwork LemmasNetwork ModelNetworkList
  SpecNetworkList LemmasNetworkList LemmasListProps LemmasExcludeProps
  ModelTree LemmasTreeProps LemmasSpecNetwork ModelStringPool ModelObjects ModelText SpecText LemmasText LemmasTextAddr
  ModelFile ModelWriter ModelDatabase ModelExport SpecNetwork SpecStringPool SpecObjects SpecTree SpecExport SpecWriter
  LemmasObjects LemmasWriter LemmasDbProps LemmasLookupDb LemmasTwice LemmasExportText ModelBindings ModelCommand SpecCommand LemmasBindings LemmasCommand.
Import ListNotations.
Open Scope N_scope.
Local Opaque cleanup.

Lemma mod_bit f i : i < 16 -> N.testbit (f mod 2 ^ 16) i = N.testbit f i.
Proof. intros I. now rewrite N.mod_pow2_bits_low. Qed.

Lemma loop_fetched d s fuel : forall lo hi y, get_country_loop d s lo hi fuel = Ok (Some y) -> exists i, fetch_country d i = Ok y.
Proof.
  induction fuel as [|fuel IH]; intros lo hi y E; cbn [get_country_loop] in E; destruct (lo <=? hi)%Z; try discriminate.
  destruct (fetch_country d (Z.to_N ((lo + hi) / 2))) as [c| | |] eqn:F; try discriminate. cbn [bind] in E. cbv zeta in E.
  destruct (strcmp s (cc_str (c_code c)) =? 0)%Z; [|destruct (0 <? _)%Z; eauto].
  exists (Z.to_N ((lo + hi) / 2)). rewrite F. congruence.
Qed.

Lemma get_fetched d s y : get_country d (Some s) = Ok (Some y) -> exists i, fetch_country d i = Ok y.
Proof. unfold get_country. destruct (negb _); [discriminate|]. apply loop_fetched. Qed.

Section Bindings.
Variables (ctz0 : nat) (held : network -> bool) (key1 key2 : option evp).
Variables (os : list call) (w : writer) (x : save) (w' : writer) (f : list N) (d : db).
Hypothesis Call : Forall call_ok os.
Hypothesis NoSave : Forall no_save os.
Hypothesis Prog : program ctz0 held key1 key2 os = Ok w.
Hypothesis Write : write_to ctz0 held key1 key2 w x = Ok (0%Z, w', f).
Hypothesis Size : N.of_nat (length f) < 2 ^ 32.
Hypothesis Now : s_now x < 2 ^ 64.
Hypothesis Open : db_open f = Ok d.

Lemma bindings_lookup beyond fuel s a p : (129 <= fuel)%nat -> is_text s -> ~ In 0 s ->
  address_parse false (Some s) = Ok (a, p) -> lookup beyond d a fuel <> UB ->
  (exists y z, member y (num a) /\ most_specific (given os) (num a) z /\
    perl_country_code beyond fuel d s = Ok (Is (get_country_code z)) /\
    perl_asn beyond fuel d s = Ok (if n_asn z =? 0 then Nothing else Is (n_asn z)) /\
    (forall i name, nth_error perl_flags i = Some name ->
       perl_has_flag beyond fuel d s name = Ok (Is (N.testbit (n_flags z) (N.of_nat i)))) /\
    lua_lookup beyond fuel d s = Ok (Is y) /\
    lua_country_code y = (match get_country_code z with [] => Nothing | c => Is c end) /\
    lua_asn y = (if n_asn z =? 0 then Nothing else Is (n_asn z)) /\
    py_lookup beyond fuel d s = Ok (inl (Some y)) /\
    py_country_code y = Ok (inl (get_country_code z)) /\
    py_asn y = (if n_asn z =? 0 then None else Some (n_asn z)) /\
    (forall i, i < 16 -> py_has_flag y (2 ^ i) = N.testbit (n_flags z) i)) \/
  (lookup beyond d a fuel = Ok (None, 0%Z) /\
    perl_country_code beyond fuel d s = Ok Nothing /\ perl_asn beyond fuel d s = Ok Nothing /\
    (forall name, In name perl_flags -> perl_has_flag beyond fuel d s name = Ok (Is false)) /\
    lua_lookup beyond fuel d s = Ok Nothing /\ py_lookup beyond fuel d s = Ok (inl None)).
Proof.
  intros Hf T Z P NU. pose proof (parse_addr _ _ _ _ P) as A.
  destruct (lookup_result _ _ _ _ _ _ _ _ _ _ Call Prog Write Size Now Open beyond fuel Hf a A) as [U|(n & L & W)]; [contradiction|].
  pose proof (py_lookup_ok x f d Size Now beyond fuel (fun l => l) Hf _ _ _ _ T Z P L) as Py.
  assert (Af : forall B (g : network -> answer B), answer_for beyond fuel d s g = Ok (match n with None => Nothing | Some n => g n end)).
  { intros B g. unfold answer_for, lookup_from_string. rewrite P, L. reflexivity. }
  destruct n as [y|]; [left|right].
  - destruct (given_sound _ _ _ _ _ _ _ _ _ _ Call NoSave Prog Write Size Now Open _ _ _ _ _ A Hf L) as (_ & M & z & Mz & C1 & C2 & C3).
    exists y, z. split; auto. split; auto. unfold perl_country_code, perl_asn, perl_has_flag, lua_lookup. rewrite !Af, C1, C2.
    split; [reflexivity|]. split; [destruct (N.eqb_spec (n_asn z) 0) as [E|E]; [rewrite E; reflexivity|replace (0 <? n_asn z) with true by (clear -E; lia); reflexivity]|].
    assert (Fl : forall i, i < 16 -> negb (has_flag y (2 ^ i) =? 0) = N.testbit (n_flags z) i).
    { intros i I. unfold has_flag. rewrite flag_bit, C3. now apply mod_bit. }
    split; [|split; [reflexivity|]].
    + intros i name E. destruct i as [|[|[|[|i]]]]; cbn [perl_flags nth_error] in E; [..|destruct i; discriminate];
        injection E as <-.
      * replace (perl_flag _) with (Some 1) by (vm_compute; reflexivity). rewrite Af. change 1 with (2 ^ 0). now rewrite Fl.
      * replace (perl_flag _) with (Some 2) by (vm_compute; reflexivity). rewrite Af. change 2 with (2 ^ 1). now rewrite Fl.
      * replace (perl_flag _) with (Some 4) by (vm_compute; reflexivity). rewrite Af. change 4 with (2 ^ 2). now rewrite Fl.
      * replace (perl_flag _) with (Some 8) by (vm_compute; reflexivity). rewrite Af. change 8 with (2 ^ 3). now rewrite Fl.
    + split; [unfold lua_country_code; rewrite C1; reflexivity|]. split; [unfold lua_asn; rewrite C2; reflexivity|].
      split; [exact Py|]. split.
      * unfold py_country_code, py_text. destruct (cc_text y W) as [E|V]; [rewrite <- C1, E; reflexivity|].
        rewrite <- C1. destruct (cc_valid_two _ V) as (c1 & c2 & E & B1 & B2 & _). rewrite E.
        rewrite ascii_utf8 by (repeat constructor; clear -B1 B2; lia). reflexivity.
      * split; [unfold py_asn; rewrite C2; reflexivity|]. exact Fl.
  - split; auto. unfold perl_country_code, perl_asn, perl_has_flag, lua_lookup. rewrite !Af. split; auto. split; auto. split; [|auto].
    intros name [<-|[<-|[<-|[<-|[]]]]].
    + replace (perl_flag _) with (Some 1) by (vm_compute; reflexivity). now rewrite Af.
    + replace (perl_flag _) with (Some 2) by (vm_compute; reflexivity). now rewrite Af.
    + replace (perl_flag _) with (Some 4) by (vm_compute; reflexivity). now rewrite Af.
    + replace (perl_flag _) with (Some 8) by (vm_compute; reflexivity). now rewrite Af.
Qed.

Lemma bindings_as :
  (forall a, In a (ases (meaning os)) -> exists r,
     perl_as_name d (the_number a) = Ok (Is (or_empty (the_name a))) /\
     lua_get_as d (the_number a) = Ok (Is r) /\
     as_number r = the_number a /\ as_name r = Some (or_empty (the_name a)) /\
     (the_number a < 2 ^ 31 -> py_get_as d (the_number a) = Ok (inl (Some r)))) /\
  (forall n, ~ In n (map the_number (ases (meaning os))) ->
     perl_as_name d n = Ok Nothing /\ lua_get_as d n = Ok Nothing /\ (n < 2 ^ 31 -> py_get_as d n = Ok (inl None))).
Proof.
  destruct (written_get_as _ _ _ _ _ _ _ _ _ _ Call Prog Write Size Now Open) as [G1 G2]. split.
  - intros a I. destruct (G1 a I) as (r & G & Nr & Nm). exists r. unfold perl_as_name, lua_get_as, py_get_as. rewrite G, Nm.
    split; [reflexivity|]. split; [reflexivity|]. split; [exact Nr|]. split; [reflexivity|]. intros B.
    replace (2 ^ 31 <=? the_number a) with false by (clear -B; lia). reflexivity.
  - intros n I. unfold perl_as_name, lua_get_as, py_get_as. rewrite (G2 n I). split; [reflexivity|]. split; [reflexivity|]. intros B.
    replace (2 ^ 31 <=? n) with false by (clear -B; lia). reflexivity.
Qed.

Lemma bindings_country other : countries_in_order (meaning os) ->
  (forall z, In z (countries (meaning os)) -> exists y,
     perl_country_name d (the_code z) = Ok (Is (or_empty (the_country_name z))) /\
     lua_get_country d (the_code z) = Ok (Is y) /\ py_get_country other d (the_code z) = Ok (inl (Some y)) /\
     cc_str (c_code y) = the_code z /\ country_get_name y = Ok (Some (or_empty (the_country_name z))) /\
     (name_ok (the_country_name z) -> py_country_name y = Ok (inl (Some (or_empty (the_country_name z)))))) /\
  (forall s, country_code (Some s) <> None -> ~ In s (map the_code (countries (meaning os))) ->
     py_get_country other d s = Ok (inl None)) /\
  (forall s, country_code (Some s) = None ->
     perl_country_name d s = Ok Nothing /\ lua_get_country d s = Ok Nothing /\
     (is_text s -> py_get_country other d s = Ok (inr ValueError))).
Proof.
  intros Order.
  destruct (written_get_country _ _ _ _ _ _ _ _ _ _ Call Prog Write Size Now Open Order) as (G1 & G2 & G3).
  assert (Va : forall s, cc_is_valid (Some s) = true -> py_arg s = value s).
  { intros s V. destruct (cc_valid_two _ V) as (c1 & c2 & -> & B1 & B2 & _). unfold py_arg.
    rewrite ascii_utf8 by (repeat constructor; clear -B1 B2; lia).
    replace (existsb (fun c => c =? 0) [c1; c2]) with false by (cbn [existsb]; clear -B1 B2; lia). reflexivity. }
  split; [|split].
  - intros z I. destruct (G1 z I) as (y & G & Cy & Nm). exists y. unfold perl_country_name, lua_get_country, py_get_country. rewrite G, Nm. cbn [bind].
    split; [reflexivity|]. split; [reflexivity|]. split; [|split; [exact Cy|]].
    + assert (V : cc_is_valid (Some (the_code z)) = true).
      { destruct (cc_is_valid (Some (the_code z))) eqn:E; auto. rewrite G3 in G; [discriminate|]. now rewrite country_code_valid, E. }
      rewrite (Va _ V). cbn [pbind value bind]. rewrite G. reflexivity.
    + split; [reflexivity|]. intros K. unfold py_country_name. rewrite Nm. cbn [bind]. unfold py_text.
      replace (utf8 _) with true; [reflexivity|]. destruct (the_country_name z); [symmetry; now apply text_utf8|reflexivity].
  - intros s V I. unfold py_get_country. rewrite Va.
    + cbn [pbind value bind]. now rewrite G2.
    + rewrite country_code_valid in V. destruct (cc_is_valid (Some s)); [reflexivity|congruence].
  - intros s V. unfold perl_country_name, lua_get_country, py_get_country. rewrite (G3 _ V). split; [reflexivity|]. split; [reflexivity|].
    intros T. unfold py_arg. rewrite (text_utf8 s T). destruct (existsb (fun c => c =? 0) s); [reflexivity|].
    cbn [andb negb pbind value bind]. rewrite (G3 _ V). rewrite country_code_valid in V. destruct (cc_is_valid (Some s)); [discriminate|reflexivity].
Qed.

Lemma bindings_continent z s : countries_in_order (meaning os) ->
  In z (countries (meaning os)) -> the_continent z = Some s -> perl_continent_code d (the_code z) = Ok (Is s).
Proof.
  intros Order I T. destruct (written_get_country _ _ _ _ _ _ _ _ _ _ Call Prog Write Size Now Open Order) as (G1 & _).
  destruct (G1 z I) as (y & G & Cy & _). unfold perl_continent_code. rewrite G. destruct (get_fetched _ _ _ G) as (i & F).
  destruct (written_countries _ _ _ _ _ _ _ _ _ _ Call Prog Write Size Now Open) as [C W].
  assert (B : i < snd (d_countries d)). { unfold fetch_country in F. destruct (N.leb_spec (snd (d_countries d)) i); [discriminate|assumption]. }
  rewrite C in B. destruct (nth_error (countries (meaning os)) (N.to_nat i)) as [z'|] eqn:E; [|apply nth_error_None in E; clear -B E; lia].
  destruct (W _ _ E) as (y' & F' & Cy' & K & _). rewrite N2Nat.id, F in F'. assert (y' = y) by congruence. subst y'. clear F'.
  assert (z' = z) as ->.
  { apply In_nth_error in I as [j J]. rewrite Cy in Cy'.
    destruct (Nat.lt_trichotomy (N.to_nat i) j) as [Lt|[L|Lt]].
    - pose proof (LemmasDbCountry.sorted_nth ctz0 _ _ _ j z' z Order Lt E J) as X. cbv beta in X. rewrite <- Cy' in X.
      exfalso. clear -X. unfold code_before in X. destruct (the_code z) as [|? [|? [|]]]; lia.
    - rewrite L, J in E. congruence.
    - pose proof (LemmasDbCountry.sorted_nth ctz0 _ _ j _ z z' Order Lt J E) as X. cbv beta in X. rewrite <- Cy' in X.
      exfalso. clear -X. unfold code_before in X. destruct (the_code z) as [|? [|? [|]]]; lia. }
  rewrite (continents_set _ _ _ _ E ltac:(congruence)), T in K. assert (K' : country_get_continent_code y = Some s) by congruence. now rewrite K'.
Qed.

(** Perl and Lua crash for every country that is not in the database. *)
Lemma bindings_country_crash s : countries_in_order (meaning os) ->
  country_code (Some s) <> None -> ~ In s (map the_code (countries (meaning os))) ->
  perl_country_name d s = UB /\ perl_continent_code d s = UB /\ lua_get_country d s = UB.
Proof.
  intros Order V I. destruct (written_get_country _ _ _ _ _ _ _ _ _ _ Call Prog Write Size Now Open Order) as (_ & G2 & _).
  unfold perl_country_name, perl_continent_code, lua_get_country. now rewrite (G2 s V I).
Qed.
End Bindings.

Lemma bindings_invalid beyond fuel d s : address_parse false (Some s) = Err 1 ->
  perl_country_code beyond fuel d s = Ok Exception /\ perl_asn beyond fuel d s = Ok Exception /\
  (forall name, perl_has_flag beyond fuel d s name = Ok Exception) /\ lua_lookup beyond fuel d s = Ok Exception /\
  (is_text s -> ~ In 0 s -> py_lookup beyond fuel d s = Ok (inr OSError)).
Proof.
  intros P. unfold perl_country_code, perl_asn, perl_has_flag, lua_lookup, py_lookup, answer_for, lookup_from_string.
  rewrite P. cbn [bind]. split; auto. split; auto. split; [|split; auto].
  - intros name. destruct (perl_flag name); reflexivity.
  - intros T Z. unfold py_arg. rewrite (text_utf8 s T).
    replace (existsb (fun c => c =? 0) s) with false.
    + cbn [andb negb pbind value bind]. rewrite P. reflexivity.
    + symmetry. apply not_true_is_false. intros H. apply existsb_exists in H as (c & I & C). apply Z. replace 0 with c by lia. exact I.
Qed.

Lemma pop_all_spec k : forall L l, repr L l -> (length l <= k)%nat -> pop_all L k = Ok (rev l).
Proof.
  induction k as [|k IH]; intros L l R B.
  - destruct l; [|cbn [length] in B; lia]. cbn [pop_all]. destruct (list_pop_spec L [] R) as [[_ E]|(l' & n & E & _)]; [|destruct l'; discriminate].
    unfold list_pop in E. destruct (list_empty L); [reflexivity|]. destruct (read_elem _ _); discriminate.
  - cbn [pop_all]. destruct (list_pop_spec L l R) as [[-> E]|(l' & n & -> & L' & E & R')].
    + unfold list_pop in E. destruct (list_empty L); [reflexivity|]. destruct (read_elem _ _); discriminate.
    + destruct (list_empty L) eqn:Em; [unfold list_pop in E; rewrite Em in E; discriminate|]. rewrite E. cbn [bind fst snd].
      rewrite app_length in B. cbn [length] in B. rewrite (IH L' l' R') by lia. cbn [bind]. now rewrite rev_app_distr.
Qed.

Lemma bindings_exclude n m : valid_network n -> valid_network m -> strictly_inside n m -> ~ crosses n m ->
  exists l, py_exclude n m = Ok (inl (rev l)) /\ exactly n l (fun v => member n v /\ ~ member m v).
Proof.
  intros V1 V2 I C. destruct (exclude_difference n m V1 V2 I C) as (L & l & E & R & X). exists l. split; auto.
  apply contents_repr in R. unfold py_exclude. rewrite E. rewrite (pop_all_spec _ _ _ R); [reflexivity|].
  destruct R as [-> _]. lia.
Qed.

Lemma bindings_exclude_outside n m : valid_network n -> valid_network m -> ~ strictly_inside n m -> py_exclude n m = Ok (inl []).
Proof.
  intros V1 V2 I. destruct (exclude_outside n m V1 V2 I) as (L & E & R). apply contents_repr in R. unfold py_exclude. rewrite E.
  rewrite (pop_all_spec _ _ _ R); [reflexivity|cbn [length]; lia].
Qed.

Lemma bindings_exclude_crash n m : valid_network n -> valid_network m -> strictly_inside n m -> crosses n m -> py_exclude n m = UB.
Proof. intros V1 V2 I C. unfold py_exclude. now rewrite (exclude_crossing n m V1 V2 I C). Qed.
