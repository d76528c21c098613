(** get-as, search-as, list-countries and dump for databases that were written. *)
From Coq Require Import String.
From Coq Require Import NArith ZArith List Bool Arith Lia ZifyBool ZifyNat ZifyN Sorting.Sorted.
From Verif Require Import Base LemmasBase ModelAddress ModelCountryCode ModelNetwork LemmasNetwork ModelNetworkList SpecNetworkList
  ModelTree SpecTree LemmasSpecNetwork ModelStringPool ModelObjects ModelText SpecText LemmasText
  ModelFile ModelWriter ModelDatabase ModelEnum SpecEnum ModelExport SpecNetwork SpecObjects SpecExport SpecResolv SpecUpdate SpecWriter
  LemmasObjects LemmasWriter LemmasDb LemmasDbProps LemmasEnumAs LemmasEnumDb LemmasExport LemmasExportText
  ModelDownload ModelUpdate LemmasUpdateDb ModelBindings ModelCommand SpecCommand LemmasBindings LemmasCommand LemmasBindingsDb ModelList SpecList LemmasList LemmasListDb.
Import ListNotations.
Open Scope N_scope.
Local Opaque cleanup.

Lemma utf8_or_empty s : LemmasCommand.name_ok s -> utf8 (or_empty s) = true.
Proof. destruct s; cbn [or_empty LemmasCommand.name_ok]; [apply text_utf8|reflexivity]. Qed.

Lemma get_as_int d n : n < 2 ^ 31 -> py_get_as_int d (Z.of_N n) = py_get_as d n.
Proof.
  intros B. unfold py_get_as_int, py_get_as. replace (_ || _) with false by lia. replace (2 ^ 31 <=? n) with false by lia.
  replace (Z.to_N (Z.of_N n mod 2 ^ 32)) with n by (rewrite Z.mod_small by lia; lia). reflexivity.
Qed.

Section Db.
Variables (ctz0 : nat) (held : network -> bool) (key1 key2 : option evp).
Variables (os : list call) (w : writer) (x : save) (w' : writer) (f : list N) (d : db).
Hypothesis Call : Forall call_ok os.
Hypothesis Prog : program ctz0 held key1 key2 os = Ok w.
Hypothesis Write : write_to ctz0 held key1 key2 w x = Ok (0%Z, w', f).
Hypothesis Size : N.of_nat (length f) < 2 ^ 32.
Hypothesis Now : s_now x < 2 ^ 64.
Hypothesis Open : db_open f = Ok d.

Lemma as_bound a : In a (ases (meaning os)) -> the_number a < 2 ^ 32.
Proof.
  intros I1. assert (I2 : In (the_number a) (map the_number (ases (meaning os)))) by now apply in_map.
  apply meaning_numbers in I2. clear -I2 Call. rewrite Forall_forall in Call. exact (Call _ I2).
Qed.

Section Names.
Hypothesis Names : Forall (fun a => LemmasCommand.name_ok (the_name a)) (ases (meaning os)).

Lemma get_as_loop int_of : forall asns, Forall (fun s => match int_of s with Some n => (0 <= n < 2 ^ 31)%Z | None => True end) asns ->
  exists results, Forall2 (owner_shown (meaning os) int_of) asns results /\
  forall ret lines none, handle_get_as int_of d ret asns lines none =
    Ok (mkEnded (if existsb (fun r => match r with None => true | _ => false end) results then 1 else ret)
      (lines ++ all_lines results) (none ++ none_for asns results)).
Proof.
  destruct (bindings_as _ _ _ _ _ _ _ _ _ _ Call Prog Write Size Now Open) as [G1 G2].
  pose proof as_bound as Bd. clear Prog Write Open Call.
  induction 1 as [|s asns B _ (results & F & IH)].
  - exists []. split; [constructor|]. intros. cbn [handle_get_as existsb all_lines flat_map]. unfold none_for. cbn [combine filter map]. now rewrite !app_nil_r.
  - assert (None_ : owner_shown (meaning os) int_of s None ->
       (forall ret lines none, handle_get_as int_of d ret (s :: asns) lines none = handle_get_as int_of d 1 asns lines (none ++ [s])) ->
       exists results, Forall2 (owner_shown (meaning os) int_of) (s :: asns) results /\
         forall ret lines none, handle_get_as int_of d ret (s :: asns) lines none =
           Ok (mkEnded (if existsb (fun r => match r with None => true | _ => false end) results then 1 else ret)
             (lines ++ all_lines results) (none ++ none_for (s :: asns) results))).
    { intros O H. exists (None :: results). split; [constructor; auto|]. intros ret lines none. rewrite H, IH. cbn [existsb orb].
      assert (Z : none_for (s :: asns) (None :: results) = s :: none_for asns results) by reflexivity. rewrite Z.
      rewrite <- app_assoc. f_equal. f_equal. destruct (existsb _ results); reflexivity. }
    destruct (int_of s) as [n|] eqn:E.
    2 : { apply None_; [cbn [owner_shown]; congruence|]. intros. cbn [handle_get_as]. now rewrite E. }
    destruct (in_dec N.eq_dec (Z.to_N n) (map the_number (ases (meaning os)))) as [I1|I1].
    + clear None_. apply in_map_iff in I1 as (a & Ea & I1). destruct (G1 a I1) as (r & _ & _ & Nr & Nm & P).
      exists (Some [txt "AS" ++ dec (the_number a) ++ txt " belongs to " ++ or_empty (the_name a)] :: results). split.
      * constructor; auto. exists a, (dec (the_number a)). split; [rewrite E; f_equal; lia|]. split; auto. split; auto.
        apply dec_plain. now apply Bd.
      * intros ret lines none. cbn [handle_get_as]. rewrite E. replace n with (Z.of_N (the_number a)) by lia. rewrite get_as_int by lia.
        rewrite P by lia. cbn [bind]. unfold py_as_name, py_text. rewrite Nm.
        rewrite utf8_or_empty by (rewrite Forall_forall in Names; now apply Names). cbn [value bind]. rewrite IH, Nr.
        unfold none_for. cbn [all_lines flat_map existsb orb combine filter map snd]. now rewrite <- app_assoc.
    + apply None_.
      * cbn [owner_shown]. intros m Q. rewrite E in Q. injection Q as ->. now rewrite N2Z.id in I1.
      * intros. cbn [handle_get_as]. rewrite E. replace n with (Z.of_N (Z.to_N n)) by lia. rewrite get_as_int by lia.
        destruct (G2 _ I1) as (_ & _ & P). rewrite P by lia. reflexivity.
Qed.
Lemma get_as_ok int_of asns : Forall (fun s => match int_of s with Some n => (0 <= n < 2 ^ 31)%Z | None => True end) asns ->
  exists results, Forall2 (owner_shown (meaning os) int_of) asns results /\
  get_as_command int_of d asns =
    Ok (mkEnded (if existsb (fun r => match r with None => true | _ => false end) results then 1 else 0) (all_lines results) (none_for asns results)).
Proof. intros B. destruct (get_as_loop int_of asns B) as (results & F & H). exists results. split; [exact F|]. apply H. Qed.

Lemma ases_enumerated l : exists L, enumerates (next_as d) (configured Ases false l) L /\
  (length L <= length (ases (meaning os)))%nat /\ StronglySorted (fun a b => as_number a < as_number b) L /\
  (forall r, In r L -> as_number r < 2 ^ 32 /\ exists s, as_name r = Some s /\ utf8 s = true) /\
  forall r, In r L <-> exists a, In a (ases (meaning os)) /\ r = mkAs 0 (the_number a) (Some (or_empty (the_name a))) /\
    match the_string l with Some s => occurs s (or_empty (the_name a)) | None => True end.
Proof.
  destruct (enumerate_ases _ _ _ _ _ _ _ _ _ _ Call Prog Write Size Now Open false l) as (L & E & St & H).
  exists L. split; [exact E|]. split; [|split; [exact St|split; [|exact H]]].
  - rewrite <- (map_length as_number L), <- (map_length the_number). apply NoDup_incl_length.
    + clear -St. induction St as [|a L St IH F]; [constructor|]. cbn [map]. constructor; auto. intros I1. apply in_map_iff in I1 as (b & Q & I1).
      rewrite Forall_forall in F. specialize (F b I1). lia.
    + intros n I1. apply in_map_iff in I1 as (r & <- & I1). apply H in I1 as (a & I1 & -> & _). exact (in_map the_number _ a I1).
  - intros r I1. apply H in I1 as (a & I1 & -> & _). split; [exact (as_bound a I1)|]. exists (or_empty (the_name a)). split; [reflexivity|].
    apply utf8_or_empty. rewrite Forall_forall in Names. now apply Names.
Qed.

Lemma search_as_ok beyond fuel objects replaced query : (length (ases (meaning os)) < objects)%nat ->
  Forall (fun a => the_number a < 2 ^ 31) (ases (meaning os)) -> is_text query -> ~ In 0 query ->
  exists L lines, search_as_command beyond fuel objects replaced d query = Ok (mkEnded 0 lines []) /\
    StronglySorted (fun a b => as_number a < as_number b) L /\
    (forall r, In r L <-> exists a, In a (ases (meaning os)) /\ r = mkAs 0 (the_number a) (Some (or_empty (the_name a))) /\ occurs query (or_empty (the_name a))) /\
    Forall2 (fun r line => exists digits, plain_decimal digits (as_number r) /\ line = txt "AS" ++ digits ++ txt " - " ++ or_empty (as_name r)) L lines.
Proof.
  intros K Small T Z. destruct (ases_enumerated [SetString query]) as (L & E & Ln & St & P & H).
  exists L, (map (py_as_str replaced) L). split; [|split; [exact St|split; [exact H|]]].
  - unfold search_as_command, py_search_as, py_arg. rewrite (text_utf8 query T).
    replace (existsb (fun c => c =? 0) query) with false.
    2 : { symmetry. apply not_true_iff_false. intros Q. apply existsb_exists in Q as (c & I1 & Q). apply N.eqb_eq in Q. subst c. auto. }
    cbn [andb negb value pbind with_ bind].
    change (enum_set_string (enum_new Ases false) query) with (configured Ases false [SetString query]).
    rewrite (for_ases beyond fuel d _ (fun a => [py_as_str replaced a]) L _ objects); [|apply (configured_state Ases false [SetString query])|exact E|lia|].
    + rewrite flat_map_single. reflexivity.
    + intros a _. reflexivity.
  - assert (Q : forall r, In r L -> exists digits, plain_decimal digits (as_number r) /\ py_as_str replaced r = txt "AS" ++ digits ++ txt " - " ++ or_empty (as_name r)).
    { intros r I1. destruct (P r I1) as (B & s & Es & U). exists (dec (as_number r)). split; [now apply dec_plain|].
      unfold py_as_str, int_text, py_shown. rewrite Es, U. cbn [or_empty]. apply H in I1 as (a & I1 & -> & _). rewrite Forall_forall in Small. specialize (Small a I1).
      cbn [as_number]. now replace (the_number a <? 2 ^ 31) with true by lia. }
    clear -Q. induction L as [|r L IH]; cbn [map]; constructor.
    + apply Q. now left.
    + apply IH. intros r' I1. apply Q. now right.
Qed.
End Names.

(** ** Countries *)
Lemma continents_all b l : Forall (fun z => exists s, the_continent z = Some s) l -> continents_read b l = map the_continent l.
Proof.
  intros F. revert b. induction F as [|z l (s & E) _ IH]; intros b; [reflexivity|]. cbn [continents_read map]. rewrite E. now rewrite IH.
Qed.

Lemma code_ascii z : In z (countries (meaning os)) -> utf8 (the_code z) = true /\ cc_is_valid (Some (the_code z)) = true.
Proof.
  intros I1. assert (I2 : In (the_code z) (map the_code (countries (meaning os)))) by now apply in_map.
  apply meaning_codes in I2 as (o & _ & V). clear -V. unfold country_code in V. destruct o as [[|a [|b [|]]]|]; try discriminate.
  destruct (_ && _) eqn:Q in V; [|discriminate]. injection V as <-. split.
  - apply ascii_utf8. constructor; [lia|]. constructor; [lia|constructor].
  - pose proof (country_code_valid (Some [a; b])) as CV. unfold country_code in CV. rewrite Q in CV. destruct (cc_is_valid (Some [a; b])); [reflexivity|discriminate].
Qed.

Lemma countries_enumerated : exists L, enumerates (next_country d) (configured Countries false []) L /\
  length L = length (countries (meaning os)) /\ map (fun y => cc_str (c_code y)) L = map the_code (countries (meaning os)) /\
  let block := if fst (s_block0 x) =? 0 then None else Some (cc_str (s_block0 x)) in
  forall i y z, nth_error L i = Some y -> nth_error (countries (meaning os)) i = Some z ->
    cc_str (c_code y) = the_code z /\
    nth_error (continents_read block (countries (meaning os))) i = Some (country_get_continent_code y) /\
    country_get_name y = Ok (Some (or_empty (the_country_name z))).
Proof.
  destruct (enumerate_countries _ _ _ _ _ _ _ _ _ _ Call Prog Write Size Now Open false []) as (L & E & Ln & H). cbv zeta in H.
  exists L. split; [exact E|]. split; [exact Ln|]. split; [|exact H].
  assert (G : forall A B (g : A -> B) l1 l2 (h : _ -> B), length l1 = length l2 ->
     (forall i (a : A) (b : a_country), nth_error l1 i = Some a -> nth_error l2 i = Some b -> g a = h b) -> map g l1 = map h l2).
  { clear. intros A B g l1. induction l1 as [|a l1 IH]; intros [|b l2] h Q F; try discriminate; [reflexivity|]. cbn [map]. f_equal.
    - exact (F O a b eq_refl eq_refl).
    - apply IH; [cbn [length] in Q; congruence|]. intros i. exact (F (S i)). }
  apply G; [exact Ln|]. intros i a b E1 E2. exact (proj1 (H i a b E1 E2)).
Qed.

Lemma country_line_ok continent name y z s :
  cc_str (c_code y) = the_code z -> utf8 (the_code z) = true ->
  country_get_name y = Ok (Some (or_empty (the_country_name z))) -> utf8 (or_empty (the_country_name z)) = true ->
  (continent = true -> country_get_continent_code y = Some s /\ the_continent z = Some s /\ utf8 s = true) ->
  country_line continent name y = printed [country_shown_as continent name z].
Proof.
  intros E1 U1 E2 U2 C. unfold country_line, country_shown_as, py_text. rewrite E1, U1. cbn [value with_ bind].
  assert (N1 : py_country_name y = value (Some (or_empty (the_country_name z)))).
  { unfold py_country_name, py_text. rewrite E2. cbn [bind]. now rewrite U2. }
  destruct continent; cbn [column].
  - destruct (C eq_refl) as (-> & -> & U3). rewrite U3. cbn [pbind value with_ bind]. destruct name; cbn [column].
    + rewrite N1. cbn [pbind value with_ bind app join or_empty]. reflexivity.
    + cbn [value with_ bind app join or_empty]. now rewrite app_nil_r.
  - destruct name; cbn [value column with_ bind].
    + rewrite N1. cbn [pbind value with_ bind app join]. reflexivity.
    + cbn [app join]. now rewrite !app_nil_r.
Qed.

Lemma list_countries_ok beyond fuel objects continent name : (length (countries (meaning os)) < objects)%nat ->
  Forall (fun z => LemmasCommand.name_ok (the_country_name z)) (countries (meaning os)) ->
  (continent = true -> Forall (fun z => exists s, the_continent z = Some s /\ is_text s) (countries (meaning os))) ->
  list_countries beyond fuel objects d continent name = Ok (mkEnded 0 (map (country_shown_as continent name) (countries (meaning os))) []).
Proof.
  intros K Nm C. destruct countries_enumerated as (L & E & Ln & _ & H). cbv zeta in H.
  pose proof code_ascii as CA.
  set (t := countries (meaning os)) in *. clearbody t. clear Call Prog Write Open.
  assert (P : forall i y z, nth_error L i = Some y -> nth_error t i = Some z -> country_line continent name y = printed [country_shown_as continent name z]).
  { intros i y z Ey Ez. destruct (H i y z Ey Ez) as (Q1 & Q2 & Q3). assert (I1 : In z t) by (eapply nth_error_In; eauto).
    rewrite Forall_forall in Nm. specialize (Nm z I1).
    apply (country_line_ok _ _ y z (or_empty (the_continent z))); auto.
    - now apply CA.
    - now apply utf8_or_empty.
    - intros Q. specialize (C Q). rewrite continents_all in Q2.
      2 : { eapply Forall_impl; [|exact C]. intros z' (s & Es & _). eauto. }
      rewrite (map_nth_error the_continent _ _ Ez) in Q2. rewrite Forall_forall in C. destruct (C z I1) as (s & Es & T).
      rewrite Es in *. cbn [or_empty]. split; [congruence|]. split; auto. now apply text_utf8. }
  unfold list_countries. change (iterate_all Countries 0 false) with (configured Countries false []).
  rewrite (for_countries beyond fuel d _ (fun y => match country_line continent name y with Ok (l, _) => l | _ => [] end) L _ objects);
    [|apply (configured_state Countries false [])|exact E|lia|].
  - unfold ends, printed. cbn [bind fst snd]. f_equal. f_equal. clear E K Nm C CA H. revert t Ln P.
    induction L as [|y L IH]; intros [|z t] Ln P; try discriminate; [reflexivity|]. cbn [flat_map map].
    rewrite (P O y z eq_refl eq_refl). cbn [printed app]. f_equal. apply IH; [cbn [length] in Ln; congruence|]. intros i. exact (P (S i)).
  - intros y I1. apply In_nth_error in I1 as (i & Ei). assert (Hi : (i < length t)%nat) by (rewrite <- Ln; apply nth_error_Some; congruence).
    destruct (nth_error t i) as [z|] eqn:Ez; [|apply nth_error_None in Ez; lia]. rewrite (P i y z Ei Ez). reflexivity.
Qed.
End Db.
