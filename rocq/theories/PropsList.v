(** C66-C69: the commands of location that list networks, ASes and countries, dump a
    database or export it.

    [beyond], [fuel] and [objects] are as in C34: bits beyond an address, bounds on
    the steps of an enumerator and on the objects it returns; [replaced] is what Python
    prints for a string that is not UTF-8, [int_of] is int(), [described] splits the
    description into lines, [hashsize] is the size an ipset gets. The theorems
    hold for all of them. *)
From Coq Require Import String.
From Coq Require Import NArith ZArith List Bool Arith Lia ZifyBool ZifyNat ZifyN Sorting.Sorted.
From Verif Require Import Base ModelAddress ModelCountryCode ModelNetwork ModelNetworkList SpecNetworkList ModelTree SpecTree LemmasTreeProps ModelStringPool ModelObjects ModelText SpecText
  ModelFile ModelWriter ModelDatabase ModelEnum SpecNetwork SpecObjects SpecEnum ModelExport SpecExport SpecResolv SpecUpdate SpecWriter LemmasDbProps LemmasEnumDb
  ModelDownload ModelUpdate ModelBindings ModelCommand SpecCommand LemmasBindings ModelList SpecList LemmasList LemmasListDb LemmasListMore LemmasListDump LemmasListExport
  PropsDatabase PropsLookup PropsCommand.
Import ListNotations.
Open Scope N_scope.

(** ** C66: lists of networks *)
(** There is one set of networks that says the same as the networks added, for all
    addresses, and each command prints those of the AS, the country or with one of
    the flags, in ascending order and in the format asked for.
    Partial: for sets of networks as in [enumerable] (see C34), formats that can be printed
    ([printable]), numbers of 32 bits. *)
Theorem C66_networks_partial : forall ctz0 held key1 key2 os w x w' f d,
  Forall call_ok os ->
  program ctz0 held key1 key2 os = Ok w ->
  write_to ctz0 held key1 key2 w x = Ok (0%Z, w', f) ->
  N.of_nat (length f) < 2 ^ 32 -> s_now x < 2 ^ 64 -> db_open f = Ok d -> Forall no_save os -> enumerable (given os) ->
  forall beyond fuel objects replaced, (3 * N.to_nat (snd (d_tree d)) + 1 <= fuel)%nat -> (N.to_nat (snd (d_tree d)) + 1 <= objects)%nat ->
  exists Ns, SpecNetworkList.ascending Ns /\
  (forall v c a fl, v < 2 ^ 128 ->
    (exists z, most_specific Ns v z /\ get_country_code z = c /\ n_asn z = a /\ n_flags z = fl) <->
    (exists z, most_specific (given os) v z /\ get_country_code z = c /\ n_asn z = a /\ n_flags z mod 2 ^ 16 = fl)) /\
  forall fmt fam, printable fmt fam ->
  (forall asn digits, asn < 2 ^ 32 -> plain_decimal digits asn -> exists L lines,
     list_by_as beyond fuel objects replaced d fmt (option_number fam) (Z.of_N asn) = Ok (mkEnded 0 lines []) /\
     lists fmt (txt "AS" ++ digits) fam L lines /\ SpecNetworkList.ascending L /\
     forall n, In n L <-> In n Ns /\ of_family fam n /\ n_asn n = asn) /\
  (forall code, cc_is_valid (Some code) = true -> exists L lines,
     list_by_cc beyond fuel objects replaced d fmt (option_number fam) code = Ok (mkEnded 0 lines []) /\
     lists fmt code fam L lines /\ SpecNetworkList.ascending L /\
     forall n, In n L <-> In n Ns /\ of_family fam n /\ get_country_code n = code) /\
  (forall p s a e, p || s || a || e = true -> exists L lines,
     list_by_flags beyond fuel objects replaced d fmt (option_number fam) p s a e = Ok (mkEnded 0 lines []) /\
     lists fmt (txt "custom") fam L lines /\ SpecNetworkList.ascending L /\
     forall n, In n L <-> In n Ns /\ of_family fam n /\
       ((p = true /\ N.testbit (n_flags n) 0 = true) \/ (s = true /\ N.testbit (n_flags n) 1 = true) \/
        (a = true /\ N.testbit (n_flags n) 2 = true) \/ (e = true /\ N.testbit (n_flags n) 3 = true))).
Proof. exact list_ok. Qed.
Print Assumptions C66_networks_partial.

(** The networks without an assignment; partial as C35. *)
Theorem C66_bogons_partial : forall ctz0 held key1 key2 os w x w' f d,
  Forall call_ok os ->
  program ctz0 held key1 key2 os = Ok w ->
  write_to ctz0 held key1 key2 w x = Ok (0%Z, w', f) ->
  N.of_nat (length f) < 2 ^ 32 -> s_now x < 2 ^ 64 -> db_open f = Ok d ->
  forall beyond replaced fmt fam, Forall no_save os -> ordinary (given os) -> printable fmt fam ->
  let G := map as_read (given os) in let l := family_setting fam in
  (forall fam, ~ assigned l G fam (first_address fam) /\ ~ assigned l G fam (last_address fam) /\ forall a, ~ gap l G fam a a) ->
  ~ attached l G ->
  exists L lines f0, lists fmt (txt "bogons") fam L lines /\ reports l G L /\
    forall fuel objects, (f0 <= fuel)%nat -> (f0 <= objects)%nat ->
    list_bogons beyond fuel objects replaced d fmt (option_number fam) = Ok (mkEnded 0 lines []).
Proof. exact bogons_ok. Qed.
Print Assumptions C66_bogons_partial.

Ltac texts := match goal with |- Forall _ ?l => let v := eval vm_compute in l in change l with v end;
  repeat (apply Forall_cons; [cbv beta match delta [the_name the_country_name the_continent]; first [exact Logic.I | apply utf8_iff; reflexivity | eexists; split; [reflexivity|apply utf8_iff; reflexivity]]|]); apply Forall_nil.
Definition list_calls : list call :=
  [AddCountry (Some [68; 69]); NameCountry 0 (Some (txt "Deutschland")); SetContinent 0 (Some (txt "EU"));
   AddAs 64497; NameAs 1 (Some [195; 132; 83]); AddAs 64496; NameAs 2 (Some (txt "Example"));
   AddNet (net_of_addr (ip4 10 0 0 0) 9 at_de); AddNet (net_of_addr (ip4 11 1 0 0) 16 at_fr);
   SetVendor (Some (txt "Me")); SetDescription (Some (txt "A case"))].
Definition lists_of d fmt fam := (list_by_as (fun _ => None) 700 200 (fun s => s) d fmt fam 64497,
  list_by_cc (fun _ => None) 700 200 (fun s => s) d fmt fam (txt "DE"), list_by_flags (fun _ => None) 700 200 (fun s => s) d fmt fam true false true false).
Example C66_case : Forall call_ok list_calls /\ Forall no_save list_calls /\ enumerable (given list_calls) /\
  printable Plain None /\ printable Ipset (Some AF_INET) /\
  exists w w' f d, program 8 (fun _ => true) None None list_calls = Ok w /\
    write_to 8 (fun _ => true) None None w save0 = Ok (0%Z, w', f) /\
    N.of_nat (length f) < 2 ^ 32 /\ s_now save0 < 2 ^ 64 /\ db_open f = Ok d /\
    ((3 * N.to_nat (snd (d_tree d)) + 1 <=? 700)%nat && (N.to_nat (snd (d_tree d)) + 1 <=? 200)%nat &&
     (let '(a, c, fl) := lists_of d Plain 0 in
      command_is a 0 [txt "11.1.0.0/16"] [] && command_is c 0 [txt "10.0.0.0/9"] [] && command_is fl 0 [txt "11.1.0.0/16"] []) &&
     (let '(a, c, fl) := lists_of d Ipset 2 in
      command_is a 0 [txt "create AS64497v4 hash:net family inet hashsize       64 maxelem 1048576 -exist"; txt "flush AS64497v4"; txt "add AS64497v4 11.1.0.0/16"] []) &&
     (let '(a, c, fl) := lists_of d Nftables 10 in command_is c 0 [txt "define DEv6 = {"; txt "}"] []))%bool = true.
Proof.
  split; [calls|]. split; [repeat constructor|]. split; [apply enumerable_check; vm_compute; reflexivity|].
  split; [exact Logic.I|]. split; [discriminate|]. apply a_case. vm_compute. reflexivity.
Qed.

(** What is refused, for all databases: an invalid country code, no flags, ipset without
    a family, and xt_geoip at all. *)
Theorem C66_refused : forall beyond fuel objects replaced d fam,
  (forall code, cc_is_valid (Some code) = false ->
     list_by_cc beyond fuel objects replaced d Plain (option_number fam) code = Ok (mkEnded 2 [] []) /\
     list_by_cc beyond fuel objects replaced d Nftables (option_number fam) code =
       Ok (mkEnded 2 [txt "define " ++ code ++ txt "v" ++ version fam ++ txt " = {"] [])) /\
  (forall fmt, list_by_flags beyond fuel objects replaced d fmt (option_number fam) false false false false = Ok (mkEnded 2 [] [])) /\
  (forall asn, list_by_as beyond fuel objects replaced d Ipset 0 asn = Ok (mkEnded 2 [] []) /\
     list_by_as beyond fuel objects replaced d XtGeoip (option_number fam) asn = Ok (mkEnded 1 [] [])) /\
  (forall code, list_by_cc beyond fuel objects replaced d Ipset 0 code = Ok (mkEnded 2 [] []) /\
     list_by_cc beyond fuel objects replaced d XtGeoip (option_number fam) code = Ok (mkEnded 1 [] [])) /\
  (forall p s a e, p || s || a || e = true -> list_by_flags beyond fuel objects replaced d Ipset 0 p s a e = Ok (mkEnded 2 [] []) /\
     list_by_flags beyond fuel objects replaced d XtGeoip (option_number fam) p s a e = Ok (mkEnded 1 [] [])) /\
  list_bogons beyond fuel objects replaced d Ipset 0 = Ok (mkEnded 2 [] []) /\
  list_bogons beyond fuel objects replaced d XtGeoip (option_number fam) = Ok (mkEnded 1 [] []).
Proof. exact list_refused. Qed.
Print Assumptions C66_refused.

(** A number that needs more than 32 bits is cut off, so the networks of another AS are printed. *)
Theorem C66_asn_refuted : (forall beyond fuel objects replaced d fam asn, (- 2 ^ 63 <= asn < 2 ^ 63)%Z ->
    list_by_as beyond fuel objects replaced d Plain fam asn = list_by_as beyond fuel objects replaced d Plain fam (asn mod 2 ^ 32)%Z) /\
  exists asn, (2 ^ 32 <= asn)%Z /\
  exists w w' f d, program 8 (fun _ => true) None None list_calls = Ok w /\
    write_to 8 (fun _ => true) None None w save0 = Ok (0%Z, w', f) /\
    N.of_nat (length f) < 2 ^ 32 /\ s_now save0 < 2 ^ 64 /\ db_open f = Ok d /\
    command_is (list_by_as (fun _ => None) 700 200 (fun s => s) d Plain 0 asn) 0 [txt "11.1.0.0/16"] [] = true.
Proof.
  split; [exact list_cut|]. exists (2 ^ 32 + 64497)%Z. split; [lia|]. apply a_case. vm_compute. reflexivity.
Qed.
Print Assumptions C66_asn_refuted.

(** ** C67: ASes and countries *)
(** get-as: a line for each AS that is in the database, a message for each argument that
    is none or not in the database.
    Partial: for numbers below 2^31 and names in UTF-8. *)
Theorem C67_get_as_partial : forall ctz0 held key1 key2 os w x w' f d,
  Forall call_ok os ->
  program ctz0 held key1 key2 os = Ok w ->
  write_to ctz0 held key1 key2 w x = Ok (0%Z, w', f) ->
  N.of_nat (length f) < 2 ^ 32 -> s_now x < 2 ^ 64 -> db_open f = Ok d ->
  Forall (fun a => match the_name a with Some s => is_text s | None => True end) (ases (meaning os)) ->
  forall int_of asns, Forall (fun s => match int_of s with Some n => (0 <= n < 2 ^ 31)%Z | None => True end) asns ->
  exists results, Forall2 (owner_shown (meaning os) int_of) asns results /\
  get_as_command int_of d asns =
    Ok (mkEnded (if existsb (fun r => match r with None => true | _ => false end) results then 1 else 0) (all_lines results) (none_for asns results)).
Proof. exact get_as_ok. Qed.
Print Assumptions C67_get_as_partial.

(** search-as: the ASes whose name contains the text, by number. Partial likewise. *)
Theorem C67_search_as_partial : forall ctz0 held key1 key2 os w x w' f d,
  Forall call_ok os ->
  program ctz0 held key1 key2 os = Ok w ->
  write_to ctz0 held key1 key2 w x = Ok (0%Z, w', f) ->
  N.of_nat (length f) < 2 ^ 32 -> s_now x < 2 ^ 64 -> db_open f = Ok d ->
  Forall (fun a => match the_name a with Some s => is_text s | None => True end) (ases (meaning os)) ->
  forall beyond fuel objects replaced query, (length (ases (meaning os)) < objects)%nat ->
  Forall (fun a => the_number a < 2 ^ 31) (ases (meaning os)) -> is_text query -> ~ In 0 query ->
  exists L lines, search_as_command beyond fuel objects replaced d query = Ok (mkEnded 0 lines []) /\
    StronglySorted (fun a b => as_number a < as_number b) L /\
    (forall r, In r L <-> exists a, In a (ases (meaning os)) /\ r = mkAs 0 (the_number a) (Some (or_empty (the_name a))) /\ occurs query (or_empty (the_name a))) /\
    Forall2 (fun r line => exists digits, plain_decimal digits (as_number r) /\ line = txt "AS" ++ digits ++ txt " - " ++ or_empty (as_name r)) L lines.
Proof. exact search_as_ok. Qed.
Print Assumptions C67_search_as_partial.

(** list-countries: a line for each country in the order of the database.
    Partial: names in UTF-8; every country has a continent if continents are shown. *)
Theorem C67_countries_partial : forall ctz0 held key1 key2 os w x w' f d,
  Forall call_ok os ->
  program ctz0 held key1 key2 os = Ok w ->
  write_to ctz0 held key1 key2 w x = Ok (0%Z, w', f) ->
  N.of_nat (length f) < 2 ^ 32 -> s_now x < 2 ^ 64 -> db_open f = Ok d ->
  forall beyond fuel objects continent name, (length (countries (meaning os)) < objects)%nat ->
  Forall (fun z => match the_country_name z with Some s => is_text s | None => True end) (countries (meaning os)) ->
  (continent = true -> Forall (fun z => exists s, the_continent z = Some s /\ is_text s) (countries (meaning os))) ->
  list_countries beyond fuel objects d continent name = Ok (mkEnded 0 (map (country_shown_as continent name) (countries (meaning os))) []).
Proof. exact list_countries_ok. Qed.
Print Assumptions C67_countries_partial.

Definition number_text (s : list N) : option Z := if list_eq_dec N.eq_dec s (txt "64496") then Some 64496%Z else if list_eq_dec N.eq_dec s (txt "5") then Some 5%Z else None.
Example C67_case : Forall call_ok list_calls /\
  Forall (fun a => match the_name a with Some s => is_text s | None => True end) (ases (meaning list_calls)) /\
  Forall (fun s => match number_text s with Some n => (0 <= n < 2 ^ 31)%Z | None => True end) [txt "64496"; txt "5"; txt "x"] /\
  Forall (fun z => match the_country_name z with Some s => is_text s | None => True end) (countries (meaning list_calls)) /\
  Forall (fun z => exists s, the_continent z = Some s /\ is_text s) (countries (meaning list_calls)) /\
  exists w w' f d, program 8 (fun _ => true) None None list_calls = Ok w /\
    write_to 8 (fun _ => true) None None w save0 = Ok (0%Z, w', f) /\
    N.of_nat (length f) < 2 ^ 32 /\ s_now save0 < 2 ^ 64 /\ db_open f = Ok d /\
    (command_is (get_as_command number_text d [txt "64496"; txt "5"; txt "x"]) 1 [txt "AS64496 belongs to Example"] [txt "5"; txt "x"] &&
     command_is (search_as_command (fun _ => None) 700 200 (fun s => s) d (txt "")) 0 [txt "AS64496 - Example"; txt "AS64497 - " ++ [195; 132; 83]] [] &&
     command_is (search_as_command (fun _ => None) 700 200 (fun s => s) d (txt "am")) 0 [txt "AS64496 - Example"] [] &&
     command_is (list_countries (fun _ => None) 700 200 d true true) 0 [txt "DE EU Deutschland"] [] &&
     command_is (list_countries (fun _ => None) 700 200 d false false) 0 [txt "DE"] [])%bool = true.
Proof.
  split; [calls|]. split; [texts|]. split; [repeat (apply Forall_cons; [cbn; lia|]); apply Forall_nil|].
  split; [texts|]. split; [texts|].
  apply a_case. vm_compute. reflexivity.
Qed.

(** get-as stops at a number that does not fit an int, and takes a negative one for a large one. *)
Theorem C67_get_as_refuted :
  (forall int_of d s asns n, int_of s = Some n -> (2 ^ 31 <= n)%Z -> get_as_command int_of d (s :: asns) = Ok (mkEnded 1 [] [])) /\
  exists os, Forall call_ok os /\ exists w w' f d, program 8 (fun _ => true) None None os = Ok w /\
    write_to 8 (fun _ => true) None None w save0 = Ok (0%Z, w', f) /\
    N.of_nat (length f) < 2 ^ 32 /\ s_now save0 < 2 ^ 64 /\ db_open f = Ok d /\
    command_is (get_as_command (fun _ => Some (-1)%Z) d [txt "-1"]) 0 [txt "AS4294967295 belongs to Last"] [] = true.
Proof.
  split; [exact get_as_large|]. exists [AddAs 4294967295; NameAs 0 (Some (txt "Last"))].
  split; [calls|]. apply a_case. vm_compute. reflexivity.
Qed.
Print Assumptions C67_get_as_refuted.

(** search-as prints large numbers as negative ones. *)
Theorem C67_search_as_refuted : exists os, Forall call_ok os /\ exists w w' f d, program 8 (fun _ => true) None None os = Ok w /\
    write_to 8 (fun _ => true) None None w save0 = Ok (0%Z, w', f) /\
    N.of_nat (length f) < 2 ^ 32 /\ s_now save0 < 2 ^ 64 /\ db_open f = Ok d /\
    command_is (search_as_command (fun _ => None) 700 200 (fun s => s) d (txt "Last")) 0 [txt "AS-1 - Last"] [] = true.
Proof.
  exists [AddAs 4294967295; NameAs 0 (Some (txt "Last"))]. split; [calls|]. apply a_case. vm_compute. reflexivity.
Qed.
Print Assumptions C67_search_as_refuted.

(** If continents are shown, the first country without one ends the list. *)
Definition unset : save := mkSave 1700000000 1 [] hole0 (0, 0).
Theorem C67_countries_refuted : exists os, Forall call_ok os /\ length (countries (meaning os)) = 2%nat /\
  exists w w' f d, program 8 (fun _ => true) None None os = Ok w /\
    write_to 8 (fun _ => true) None None w unset = Ok (0%Z, w', f) /\
    N.of_nat (length f) < 2 ^ 32 /\ s_now unset < 2 ^ 64 /\ db_open f = Ok d /\
    command_is (list_countries (fun _ => None) 700 200 d true false) 1 [] [] = true.
Proof.
  exists [AddCountry (Some (txt "AT")); AddCountry (Some (txt "DE")); SetContinent 1 (Some (txt "EU"))].
  split; [calls|]. split; [vm_compute; reflexivity|]. apply a_case. vm_compute. reflexivity.
Qed.
Print Assumptions C67_countries_refuted.

(** ** C68: dump *)
(** The metadata, all ASes by number, and a set of networks that says the same as the networks
    added, each with what it says. Countries are not in a dump.
    Partial: for sets of networks as in [enumerable], strings in UTF-8, times before the
    year 10000. *)
Theorem C68_dump_partial : forall ctz0 held key1 key2 os w x w' f d,
  Forall call_ok os ->
  program ctz0 held key1 key2 os = Ok w ->
  write_to ctz0 held key1 key2 w x = Ok (0%Z, w', f) ->
  N.of_nat (length f) < 2 ^ 32 -> s_now x < 253402300800 -> db_open f = Ok d -> Forall no_save os -> enumerable (given os) ->
  Forall (fun a => match the_name a with Some s => is_text s | None => True end) (ases (meaning os)) ->
  is_text (vendor (meaning os)) -> is_text (license (meaning os)) -> is_text (description (meaning os)) ->
  forall beyond fuel objects described years,
  (3 * N.to_nat (snd (d_tree d)) + 1 <= fuel)%nat -> (N.to_nat (snd (d_tree d)) + 1 <= objects)%nat -> (length (ases (meaning os)) < objects)%nat -> (3 <= years)%nat ->
  exists y m dd h mi s As as_lines Ns net_lines,
    valid_date y m dd h mi s /\ seconds_since_epoch y m dd h mi s = Z.of_N (s_now x) /\
    dump beyond fuel objects described d years = Ok (mkEnded 0
      (dump_head (meaning os) (date_text (weekday (Z.of_N (s_now x))) y m dd h mi s) (described (description (meaning os))) ++ concat as_lines ++ concat net_lines) []) /\
    StronglySorted (fun a b => the_number a < the_number b) As /\ (forall a, In a As <-> In a (ases (meaning os))) /\
    Forall2 (fun a => dumped_as (the_number a) (or_empty (the_name a))) As as_lines /\
    SpecNetworkList.ascending Ns /\ Forall2 dumped_network Ns net_lines /\
    forall v c a fl, v < 2 ^ 128 ->
      (exists z, most_specific Ns v z /\ get_country_code z = c /\ n_asn z = a /\ n_flags z = fl) <->
      (exists z, most_specific (given os) v z /\ get_country_code z = c /\ n_asn z = a /\ n_flags z mod 2 ^ 16 = fl).
Proof. exact dump_ok. Qed.
Print Assumptions C68_dump_partial.
Example C68_case : Forall call_ok list_calls /\ Forall no_save list_calls /\ enumerable (given list_calls) /\
  Forall (fun a => match the_name a with Some s => is_text s | None => True end) (ases (meaning list_calls)) /\
  is_text (vendor (meaning list_calls)) /\ is_text (license (meaning list_calls)) /\ is_text (description (meaning list_calls)) /\
  exists w w' f d, program 8 (fun _ => true) None None list_calls = Ok w /\
    write_to 8 (fun _ => true) None None w save0 = Ok (0%Z, w', f) /\
    N.of_nat (length f) < 2 ^ 32 /\ s_now save0 < 2 ^ 64 /\ db_open f = Ok d /\
    command_is (dump (fun _ => None) 700 200 (fun s => [txt "# " ++ s]) d 3) 0
      [txt "#"; txt "# Location Database Export"; txt "#"; txt "# Generated: Tue, 14 Nov 2023 22:13:20 GMT"; txt "# Vendor:    Me"; txt "#"; txt "# A case"; txt "#";
       []; txt "aut-num:                 AS64496"; txt "name:                    Example";
       []; txt "aut-num:                 AS64497"; txt "name:                    " ++ [195; 132; 83];
       []; txt "net:                     10.0.0.0/9"; txt "country:                 DE"; txt "aut-num:                 64496";
       []; txt "net:                     11.1.0.0/16"; txt "country:                 FR"; txt "aut-num:                 64497"; txt "is-anycast:              yes"] [] = true.
Proof.
  split; [calls|]. split; [repeat constructor|]. split; [apply enumerable_check; vm_compute; reflexivity|].
  split; [texts|]. do 3 (split; [apply utf8_iff; reflexivity|]).
  apply a_case. vm_compute. reflexivity.
Qed.

(** ** C69: export *)
(** What the arguments ask for. *)
Theorem C69_arguments : forall args codes numbers, asked args codes numbers <-> arguments args = (codes, numbers).
Proof. exact arguments_iff. Qed.
Print Assumptions C69_arguments.

(** One file for each output that was asked for, in each family: its name, its text and the
    networks in it.
    Partial: for sets of networks as in [ordinary], numbers of 32 bits other than 0, sizes of at
    most eight digits for ipset, all formats but xt_geoip; see C49 for the special codes. *)
Theorem C69_files_partial : forall ctz0 held key1 key2 os w x w' f d,
  Forall call_ok os ->
  program ctz0 held key1 key2 os = Ok w ->
  write_to ctz0 held key1 key2 w x = Ok (0%Z, w', f) ->
  N.of_nat (length f) < 2 ^ 32 -> s_now x < 2 ^ 64 -> db_open f = Ok d -> Forall no_save os -> ordinary (given os) ->
  forall beyond hashsize fmt, fmt <> XtGeoip -> (forall n, hashsize n < 10 ^ 8) ->
  forall args codes numbers family, asked args codes numbers -> Forall (fun a => 0 < a < 2 ^ 32) numbers ->
  exists f0 o0 parts,
  (forall fuel objects, (f0 <= fuel)%nat -> (o0 <= objects)%nat ->
     export_command beyond fuel objects hashsize d fmt family args = value (concat parts)) /\
  Forall2 (exported fmt (given os) (request (meaning os) codes numbers) numbers)
    (match family with Some fam => [fam] | None => [AF_INET6; AF_INET] end) parts.
Proof. exact export_ok. Qed.
Print Assumptions C69_files_partial.

Definition files_are (r : py (list (list N * list N))) (files : list (list N * list N)) : bool :=
  match r with
  | Ok (inl l) => if list_eq_dec (list_eq_dec N.eq_dec) (map fst l ++ map snd l) (map fst files ++ map snd files) then true else false
  | _ => false
  end.
Example C69_case : Forall call_ok list_calls /\ Forall no_save list_calls /\ ordinary (given list_calls) /\
  asked [txt "DE"; txt "AS64497"; txt "none"] [txt "DE"] [64497] /\
  exists w w' f d, program 8 (fun _ => true) None None list_calls = Ok w /\
    write_to 8 (fun _ => true) None None w save0 = Ok (0%Z, w', f) /\
    N.of_nat (length f) < 2 ^ 32 /\ s_now save0 < 2 ^ 64 /\ db_open f = Ok d /\
    (files_are (export_command (fun _ => None) 2000 100 (fun _ => 64) d Plain None [txt "DE"; txt "AS64497"; txt "none"])
      [(txt "DEv6.networks", []); (txt "AS64497v6.networks", []);
       (txt "DEv4.networks", txt "10.0.0.0/9" ++ [10]); (txt "AS64497v4.networks", txt "11.1.0.0/16" ++ [10])] &&
     files_are (export_command (fun _ => None) 2000 100 (fun _ => 64) d Nftables (Some AF_INET) [txt "DE"])
      [(txt "DEv4.set", txt "define DEv4 = {" ++ [10; 9] ++ txt "10.0.0.0/9," ++ [10] ++ txt "}" ++ [10])])%bool = true.
Proof.
  split; [calls|]. split; [repeat constructor|]. split; [apply ordinary_check; vm_compute; reflexivity|].
  split; [apply C69_arguments; vm_compute; reflexivity|]. apply a_case. vm_compute. reflexivity.
Qed.

(** With nothing but invalid arguments, everything is exported. *)
Theorem C69_invalid_refuted :
  (forall beyond fuel objects hashsize d fmt family args, Forall (fun s => (forall n, ~ names_as s n) /\ ~ names_country s) args ->
    export_command beyond fuel objects hashsize d fmt family args = export_command beyond fuel objects hashsize d fmt family []) /\
  exists w w' f d, program 8 (fun _ => true) None None list_calls = Ok w /\
    write_to 8 (fun _ => true) None None w save0 = Ok (0%Z, w', f) /\
    N.of_nat (length f) < 2 ^ 32 /\ s_now save0 < 2 ^ 64 /\ db_open f = Ok d /\
    files_are (export_command (fun _ => None) 2000 100 (fun _ => 64) d Plain (Some AF_INET) [txt "Germany"])
      [(txt "A1v4.networks", []); (txt "A2v4.networks", []); (txt "A3v4.networks", []); (txt "XDv4.networks", []);
       (txt "DEv4.networks", txt "10.0.0.0/9" ++ [10])] = true.
Proof. split; [exact export_invalid|]. apply a_case. vm_compute. reflexivity. Qed.
Print Assumptions C69_invalid_refuted.
