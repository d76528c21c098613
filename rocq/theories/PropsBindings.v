(** C63: the bindings for Perl, Python and Lua.

    [beyond], [fuel]: see PropsLookup. [Exception] is a raised error, [Nothing] undef or
    nil, [Is v] the value. [other] is the exception for an error in the record of a
    country. *)
From Coq Require Import String.
From Coq Require Import NArith ZArith List Bool Arith Lia.
From Verif Require Import Base LemmasBase ModelAddress ModelCountryCode ModelNetwork ModelNetworkList ModelTree ModelStringPool ModelObjects
  ModelText ModelFile ModelWriter ModelDatabase SpecNetwork SpecNetworkList SpecText SpecStringPool SpecObjects SpecTree SpecWriter
  LemmasTreeProps LemmasNetworkProps LemmasSpecNetwork LemmasDbProps PropsDatabase PropsLookup ModelBindings ModelCommand SpecCommand LemmasBindings LemmasCommand
  LemmasBindingsDb.
Import ListNotations.
Open Scope N_scope.

(** For every address the three bindings give the attributes of the most specific
    network that was added, or all of them nothing.
    Missing: lookups that are undefined (C22). *)
Theorem C63_lookup_partial : forall ctz0 held key1 key2 os w x w' f d,
  Forall call_ok os -> Forall no_save os ->
  program ctz0 held key1 key2 os = Ok w ->
  write_to ctz0 held key1 key2 w x = Ok (0%Z, w', f) ->
  N.of_nat (length f) < 2 ^ 32 -> s_now x < 2 ^ 64 -> db_open f = Ok d ->
  forall beyond fuel s a p, (129 <= fuel)%nat -> is_text s -> ~ In 0 s ->
  address_parse false (Some s) = Ok (a, p) -> lookup beyond d a fuel <> UB ->
  (exists y z, member y (num a) /\ most_specific (given os) (num a) z /\
    perl_country_code beyond fuel d s = Ok (Is (get_country_code z)) /\
    perl_asn beyond fuel d s = Ok (if n_asn z =? 0 then Nothing else Is (n_asn z)) /\
    (forall i name, nth_error perl_flags i = Some name ->
       perl_has_flag beyond fuel d s name = Ok (Is (N.testbit (n_flags z) (N.of_nat i)))) /\
    lua_lookup beyond fuel d s = Ok (Is y) /\
    lua_country_code y = (match get_country_code z with [] => Nothing | c => Is c end) /\
    lua_asn y = (if n_asn z =? 0 then Nothing else Is (n_asn z)) /\
    py_lookup beyond fuel d s = Ok (inl (Some y)) /\
    py_country_code y = Ok (inl (get_country_code z)) /\
    py_asn y = (if n_asn z =? 0 then None else Some (n_asn z)) /\
    (forall i, i < 16 -> py_has_flag y (2 ^ i) = N.testbit (n_flags z) i)) \/
  (lookup beyond d a fuel = Ok (None, 0%Z) /\
    perl_country_code beyond fuel d s = Ok Nothing /\ perl_asn beyond fuel d s = Ok Nothing /\
    (forall name, In name perl_flags -> perl_has_flag beyond fuel d s name = Ok (Is false)) /\
    lua_lookup beyond fuel d s = Ok Nothing /\ py_lookup beyond fuel d s = Ok (inl None)).
Proof. exact bindings_lookup. Qed.
Print Assumptions C63_lookup_partial.

(** An invalid address raises an error in all of them, for any database. *)
Theorem C63_invalid : forall beyond fuel d s, address_parse false (Some s) = Err 1 ->
  perl_country_code beyond fuel d s = Ok Exception /\ perl_asn beyond fuel d s = Ok Exception /\
  (forall name, perl_has_flag beyond fuel d s name = Ok Exception) /\ lua_lookup beyond fuel d s = Ok Exception /\
  (is_text s -> ~ In 0 s -> py_lookup beyond fuel d s = Ok (inr OSError)).
Proof. exact bindings_invalid. Qed.
Print Assumptions C63_invalid.

Definition perl_is (r : outcome (answer cstr)) (v : option cstr) : bool :=
  match r, v with
  | Ok (Is s), Some v => if list_eq_dec N.eq_dec s v then true else false
  | Ok Nothing, None => true
  | _, _ => false
  end.
Example C63_case : Forall call_ok calls1 /\ Forall no_save calls1 /\ is_text (txt "10.1.2.3") /\ ~ In 0 (txt "10.1.2.3") /\
  address_parse false (Some (txt "10.1.2.3.4")) = Err 1 /\
  exists w w' f d, program 8 (fun _ => true) None None calls1 = Ok w /\
    write_to 8 (fun _ => true) None None w save0 = Ok (0%Z, w', f) /\
    N.of_nat (length f) < 2 ^ 32 /\ s_now save0 < 2 ^ 64 /\ db_open f = Ok d /\
    (perl_is (perl_country_code (fun _ => None) 129 d (txt "10.1.2.3")) (Some (txt "FR")) &&
     perl_is (perl_country_code (fun _ => None) 129 d (txt "10.200.2.3")) (Some (txt "DE")) &&
     perl_is (perl_country_code (fun _ => None) 129 d (txt "11.1.2.3")) None &&
     match perl_has_flag (fun _ => None) 129 d (txt "10.1.2.3") (txt "LOC_NETWORK_FLAG_ANYCAST"),
       perl_has_flag (fun _ => None) 129 d (txt "10.1.2.3") (txt "LOC_NETWORK_FLAG_DROP") with
     | Ok (Is true), Ok (Is false) => true | _, _ => false end &&
     match address_parse false (Some (txt "10.1.2.3")) with
     | Ok (a, _) => match lookup (fun _ => None) d a 129 with UB => false | _ => true end | _ => false end)%bool = true.
Proof.
  split; [calls|]. split; [repeat constructor|]. split; [apply utf8_iff; reflexivity|]. split; [cbn; intuition discriminate|].
  split; [vm_compute; reflexivity|]. apply a_case. vm_compute. reflexivity.
Qed.

(** Every AS that was added is found with its name, for others there is nothing.
    Missing: in Python, numbers from 2^31. *)
Theorem C63_as_partial : forall ctz0 held key1 key2 os w x w' f d,
  Forall call_ok os ->
  program ctz0 held key1 key2 os = Ok w ->
  write_to ctz0 held key1 key2 w x = Ok (0%Z, w', f) ->
  N.of_nat (length f) < 2 ^ 32 -> s_now x < 2 ^ 64 -> db_open f = Ok d ->
  (forall a, In a (ases (meaning os)) -> exists r,
     perl_as_name d (the_number a) = Ok (Is (or_empty (the_name a))) /\
     lua_get_as d (the_number a) = Ok (Is r) /\
     as_number r = the_number a /\ as_name r = Some (or_empty (the_name a)) /\
     (the_number a < 2 ^ 31 -> py_get_as d (the_number a) = Ok (inl (Some r)))) /\
  (forall n, ~ In n (map the_number (ases (meaning os))) ->
     perl_as_name d n = Ok Nothing /\ lua_get_as d n = Ok Nothing /\ (n < 2 ^ 31 -> py_get_as d n = Ok (inl None))).
Proof. exact bindings_as. Qed.
Print Assumptions C63_as_partial.

(** In Python these raise an error, whatever the database contains. *)
Theorem C63_as_refuted : forall d n, 2 ^ 31 <= n -> py_get_as d n = Ok (inr OverflowError).
Proof. intros d n H. unfold py_get_as. apply N.leb_le in H. now rewrite H. Qed.
Print Assumptions C63_as_refuted.

(** Every country that was added is found with its name and continent. A code that is
    not valid gives nothing or a ValueError, in Python another one None.
    Missing: countries added out of order (C25), and what the other two theorems say. *)
Theorem C63_country_partial : forall ctz0 held key1 key2 os w x w' f d,
  Forall call_ok os ->
  program ctz0 held key1 key2 os = Ok w ->
  write_to ctz0 held key1 key2 w x = Ok (0%Z, w', f) ->
  N.of_nat (length f) < 2 ^ 32 -> s_now x < 2 ^ 64 -> db_open f = Ok d ->
  forall other, countries_in_order (meaning os) ->
  (forall z, In z (countries (meaning os)) -> exists y,
     perl_country_name d (the_code z) = Ok (Is (or_empty (the_country_name z))) /\
     lua_get_country d (the_code z) = Ok (Is y) /\ py_get_country other d (the_code z) = Ok (inl (Some y)) /\
     cc_str (c_code y) = the_code z /\ country_get_name y = Ok (Some (or_empty (the_country_name z))) /\
     (match the_country_name z with Some s => is_text s | None => True end ->
      py_country_name y = Ok (inl (Some (or_empty (the_country_name z)))))) /\
  (forall s, country_code (Some s) <> None -> ~ In s (map the_code (countries (meaning os))) ->
     py_get_country other d s = Ok (inl None)) /\
  (forall s, country_code (Some s) = None ->
     perl_country_name d s = Ok Nothing /\ lua_get_country d s = Ok Nothing /\
     (is_text s -> py_get_country other d s = Ok (inr ValueError))).
Proof. exact bindings_country. Qed.
Print Assumptions C63_country_partial.

Theorem C63_continent_partial : forall ctz0 held key1 key2 os w x w' f d,
  Forall call_ok os ->
  program ctz0 held key1 key2 os = Ok w ->
  write_to ctz0 held key1 key2 w x = Ok (0%Z, w', f) ->
  N.of_nat (length f) < 2 ^ 32 -> s_now x < 2 ^ 64 -> db_open f = Ok d ->
  forall z s, countries_in_order (meaning os) ->
  In z (countries (meaning os)) -> the_continent z = Some s -> perl_continent_code d (the_code z) = Ok (Is s).
Proof. exact bindings_continent. Qed.
Print Assumptions C63_continent_partial.

(** With every other valid code Perl and Lua crash. *)
Theorem C63_country_refuted : forall ctz0 held key1 key2 os w x w' f d,
  Forall call_ok os ->
  program ctz0 held key1 key2 os = Ok w ->
  write_to ctz0 held key1 key2 w x = Ok (0%Z, w', f) ->
  N.of_nat (length f) < 2 ^ 32 -> s_now x < 2 ^ 64 -> db_open f = Ok d ->
  forall s, countries_in_order (meaning os) ->
  country_code (Some s) <> None -> ~ In s (map the_code (countries (meaning os))) ->
  perl_country_name d s = UB /\ perl_continent_code d s = UB /\ lua_get_country d s = UB.
Proof. exact bindings_country_crash. Qed.
Print Assumptions C63_country_refuted.

(** Two countries with names, one of them with a continent, and two systems *)
Definition named_calls : list call :=
  [AddCountry (Some [65; 84]); NameCountry 0 (Some (txt "Austria")); SetContinent 0 (Some (txt "EU"));
   AddCountry (Some [68; 69]); NameCountry 1 (Some (txt "Germany")); AddAs 64496; NameAs 2 (Some (txt "An AS")); AddAs 4200000000].
Example C63_objects_case : Forall call_ok named_calls /\ Forall no_save named_calls /\ countries_in_order (meaning named_calls) /\
  (exists z, In z (countries (meaning named_calls)) /\ the_code z = [65; 84] /\ the_continent z = Some (txt "EU")) /\
  country_code (Some (txt "FR")) <> None /\ country_code (Some (txt "fr")) = None /\
  exists w w' f d, program 8 (fun _ => true) None None named_calls = Ok w /\
    write_to 8 (fun _ => true) None None w save0 = Ok (0%Z, w', f) /\
    N.of_nat (length f) < 2 ^ 32 /\ s_now save0 < 2 ^ 64 /\ db_open f = Ok d /\
    (perl_is (perl_country_name d (txt "DE")) (Some (txt "Germany")) && perl_is (perl_continent_code d (txt "AT")) (Some (txt "EU")) &&
     perl_is (perl_as_name d 64496) (Some (txt "An AS")) && perl_is (perl_as_name d 4200000000) (Some []) && perl_is (perl_as_name d 3) None)%bool = true.
Proof.
  split; [calls|]. split; [repeat constructor|]. split; [vm_compute; repeat constructor|]. split; [eexists; split; [left; reflexivity|split; reflexivity]|].
  split; [discriminate|]. split; [reflexivity|]. apply a_case. vm_compute. reflexivity.
Qed.

(** A country without a continent makes Perl crash (if the writer left zeros in the
    place of the continent, see C26). *)
Theorem C63_continent_refuted : exists os x z,
  Forall call_ok os /\ Forall no_save os /\ countries_in_order (meaning os) /\ In z (countries (meaning os)) /\
  exists w w' f d, program 8 (fun _ => true) None None os = Ok w /\
    write_to 8 (fun _ => true) None None w x = Ok (0%Z, w', f) /\
    N.of_nat (length f) < 2 ^ 32 /\ s_now x < 2 ^ 64 /\ db_open f = Ok d /\
    match perl_continent_code d (the_code z) with UB => true | _ => false end = true.
Proof.
  exists [AddCountry (Some [68; 69])], (mkSave 1700000000 1 [] hole0 (0, 0)). eexists. split; [calls|]. split; [repeat constructor|].
  split; [vm_compute; repeat constructor|]. split; [left; reflexivity|]. apply a_case. vm_compute. reflexivity.
Qed.
Print Assumptions C63_continent_refuted.

(** Network.exclude in Python gives the difference, as a descending list.
    Missing: the pairs of C07. *)
Theorem C63_exclude_partial : forall n m,
  valid_network n -> valid_network m -> strictly_inside n m -> ~ crosses n m ->
  exists l, py_exclude n m = Ok (inl (rev l)) /\ exactly n l (fun v => member n v /\ ~ member m v).
Proof. exact bindings_exclude. Qed.
Print Assumptions C63_exclude_partial.
Theorem C63_exclude_outside : forall n m,
  valid_network n -> valid_network m -> ~ strictly_inside n m -> py_exclude n m = Ok (inl []).
Proof. exact bindings_exclude_outside. Qed.
Print Assumptions C63_exclude_outside.
(** For those it crashes. *)
Theorem C63_exclude_refuted : forall n m,
  valid_network n -> valid_network m -> strictly_inside n m -> crosses n m -> py_exclude n m = UB.
Proof. exact bindings_exclude_crash. Qed.
Print Assumptions C63_exclude_refuted.

Example C63_exclude_case :
  (exists n m, network_new (ip4 10 0 0 0) 8 = Ok n /\ network_new (ip4 10 64 0 0) 10 = Ok m /\
     match py_exclude n m with Ok (inl [a; b]) => num (n_first a) = num (ip4 10 128 0 0) /\ num (n_first b) = num (ip4 10 0 0 0) | _ => False end) /\
  exists n m, network_new (repeat 0 16) 79 = Ok n /\ network_new (repeat 0 16) 96 = Ok m /\ crosses n m /\ py_exclude n m = UB.
Proof.
  split.
  - destruct (network_new (ip4 10 0 0 0) 8) as [n| | |] eqn:E1; try (vm_compute in E1; discriminate).
    destruct (network_new (ip4 10 64 0 0) 10) as [m| | |] eqn:E2; try (vm_compute in E2; discriminate).
    exists n, m. split; auto. split; auto. vm_compute in E1, E2. injection E1 as <-. injection E2 as <-. vm_compute. auto.
  - destruct (network_new (repeat 0 16) 79) as [n| | |] eqn:E1; try (vm_compute in E1; discriminate).
    destruct (network_new (repeat 0 16) 96) as [m| | |] eqn:E2; try (vm_compute in E2; discriminate).
    exists n, m. split; auto. split; auto. vm_compute in E1, E2. injection E1 as <-. injection E2 as <-.
    split; [|vm_compute; reflexivity]. left. split; [cbn; lia|vm_compute; reflexivity].
Qed.
