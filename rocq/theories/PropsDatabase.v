(** What is read from a database is what was written (C19, C23, C25, C26, C44).

    Common hypotheses: [os] are the calls on a new writer, [w] the writer after them,
    and writing it to a file as described by [x] returned 0 and gave the file [f].
    The file must be shorter than 4 GiB: offsets have 32 bits. *)
From Coq Require Import NArith ZArith List Bool Arith Lia Sorting.Sorted.
From Verif Require Import Base ModelAddress ModelCountryCode ModelNetwork ModelTree ModelStringPool ModelObjects
  ModelFile ModelWriter ModelDatabase SpecNetwork SpecStringPool SpecObjects SpecTree SpecWriter
  LemmasTreeProps LemmasDbProps.
Import ListNotations.
Open Scope N_scope.

Theorem C19_metadata : forall ctz0 held key1 key2 os w x w' f,
  Forall call_ok os ->
  program ctz0 held key1 key2 os = Ok w ->
  write_to ctz0 held key1 key2 w x = Ok (0%Z, w', f) ->
  N.of_nat (length f) < 2 ^ 32 -> s_now x < 2 ^ 64 ->
  exists d, db_open f = Ok d /\
    get_vendor d = Ok (Some (vendor (meaning os))) /\
    get_description d = Ok (Some (description (meaning os))) /\
    get_license d = Ok (Some (license (meaning os))) /\
    d_created_at d = s_now x /\
    count_as d = N.of_nat (length (ases (meaning os))).
Proof. exact written_metadata. Qed.
Print Assumptions C19_metadata.

Theorem C23_get_as : forall ctz0 held key1 key2 os w x w' f d,
  Forall call_ok os ->
  program ctz0 held key1 key2 os = Ok w ->
  write_to ctz0 held key1 key2 w x = Ok (0%Z, w', f) ->
  N.of_nat (length f) < 2 ^ 32 -> s_now x < 2 ^ 64 -> db_open f = Ok d ->
  (forall a, In a (ases (meaning os)) -> exists r, get_as d (the_number a) = Ok r /\
     as_number r = the_number a /\
     as_name r = Some (match the_name a with Some s => s | None => [] end)) /\
  (forall n, ~ In n (map the_number (ases (meaning os))) -> get_as d n = Err 1).
Proof. exact written_get_as. Qed.
Print Assumptions C23_get_as.

(** The ASes are the numbers that were added, each once. *)
Theorem C23_numbers : forall os,
  NoDup (map the_number (ases (meaning os))) /\
  forall n, In n (map the_number (ases (meaning os))) <-> In (AddAs n) os.
Proof. exact (fun os => conj (meaning_numbers_once os) (meaning_numbers os)). Qed.
Print Assumptions C23_numbers.

(** Partial: the countries must have been added in alphabetical order. *)
Theorem C25_get_country_partial : forall ctz0 held key1 key2 os w x w' f d,
  Forall call_ok os ->
  program ctz0 held key1 key2 os = Ok w ->
  write_to ctz0 held key1 key2 w x = Ok (0%Z, w', f) ->
  N.of_nat (length f) < 2 ^ 32 -> s_now x < 2 ^ 64 -> db_open f = Ok d ->
  countries_in_order (meaning os) ->
  (forall z, In z (countries (meaning os)) -> exists y, get_country d (Some (the_code z)) = Ok (Some y) /\
     cc_str (c_code y) = the_code z /\
     country_get_name y = Ok (Some (match the_country_name z with Some s => s | None => [] end))) /\
  (forall s, country_code (Some s) <> None -> ~ In s (map the_code (countries (meaning os))) ->
     get_country d (Some s) = Ok None) /\
  (forall s, country_code s = None -> get_country d s = Err 1).
Proof. exact written_get_country. Qed.
Print Assumptions C25_get_country_partial.

(** In any order: nothing else is found. *)
Theorem C25_only_added_partial : forall ctz0 held key1 key2 os w x w' f d,
  Forall call_ok os ->
  program ctz0 held key1 key2 os = Ok w ->
  write_to ctz0 held key1 key2 w x = Ok (0%Z, w', f) ->
  N.of_nat (length f) < 2 ^ 32 -> s_now x < 2 ^ 64 -> db_open f = Ok d ->
  forall s, country_code (Some s) <> None ->
  get_country d (Some s) = Ok None \/
  exists z y, In z (countries (meaning os)) /\ the_code z = s /\ get_country d (Some s) = Ok (Some y) /\
    cc_str (c_code y) = s /\
    country_get_name y = Ok (Some (match the_country_name z with Some s => s | None => [] end)).
Proof. exact written_only_added. Qed.
Print Assumptions C25_only_added_partial.

(** The countries are the valid codes that were added, each once. *)
Theorem C25_codes : forall os,
  NoDup (map the_code (countries (meaning os))) /\
  forall s, In s (map the_code (countries (meaning os))) <-> exists o, In (AddCountry o) os /\ country_code o = Some s.
Proof. exact (fun os => conj (meaning_codes_once os) (meaning_codes os)). Qed.
Print Assumptions C25_codes.

(** Partial: the continent code of a country without one is the one of the country
    before it, and a country without a name is read with an empty name. *)
Theorem C26_countries_partial : forall ctz0 held key1 key2 os w x w' f d,
  Forall call_ok os ->
  program ctz0 held key1 key2 os = Ok w ->
  write_to ctz0 held key1 key2 w x = Ok (0%Z, w', f) ->
  N.of_nat (length f) < 2 ^ 32 -> s_now x < 2 ^ 64 -> db_open f = Ok d ->
  let block := if fst (s_block0 x) =? 0 then None else Some (cc_str (s_block0 x)) in
  snd (d_countries d) = N.of_nat (length (countries (meaning os))) /\
  forall i z, nth_error (countries (meaning os)) i = Some z ->
    exists y, fetch_country d (N.of_nat i) = Ok y /\
      cc_str (c_code y) = the_code z /\
      nth_error (continents_read block (countries (meaning os))) i = Some (country_get_continent_code y) /\
      country_get_name y = Ok (Some (match the_country_name z with Some s => s | None => [] end)).
Proof. exact written_countries. Qed.
Print Assumptions C26_countries_partial.

(** All countries that have a continent code and a name are read as they were
    written. *)
Theorem C26_complete_partial : forall ctz0 held key1 key2 os w x w' f d,
  Forall call_ok os ->
  program ctz0 held key1 key2 os = Ok w ->
  write_to ctz0 held key1 key2 w x = Ok (0%Z, w', f) ->
  N.of_nat (length f) < 2 ^ 32 -> s_now x < 2 ^ 64 -> db_open f = Ok d ->
  forall i z, nth_error (countries (meaning os)) i = Some z ->
  the_continent z <> None -> the_country_name z <> None ->
  exists y, fetch_country d (N.of_nat i) = Ok y /\
    cc_str (c_code y) = the_code z /\
    country_get_continent_code y = the_continent z /\
    country_get_name y = Ok (the_country_name z).
Proof. exact written_complete. Qed.
Print Assumptions C26_complete_partial.

Theorem C44_sections : forall ctz0 held key1 key2 os w x w' f d,
  Forall call_ok os ->
  program ctz0 held key1 key2 os = Ok w ->
  write_to ctz0 held key1 key2 w x = Ok (0%Z, w', f) ->
  N.of_nat (length f) < 2 ^ 32 -> s_now x < 2 ^ 64 -> db_open f = Ok d ->
  let as_end := fst (d_as d) + 8 * snd (d_as d) in
  let tree_end := fst (d_tree d) + 12 * snd (d_tree d) in
  let data_end := fst (d_data d) + 12 * snd (d_data d) in
  let countries_end := fst (d_countries d) + 8 * snd (d_countries d) in
  fst (d_as d) mod 4096 = 0 /\ fst (d_tree d) mod 4096 = 0 /\ fst (d_data d) mod 4096 = 0 /\
  fst (d_countries d) mod 4096 = 0 /\ fst (d_pool d) mod 4096 = 0 /\
  8 + 4192 <= fst (d_as d) /\ as_end <= fst (d_tree d) /\ tree_end <= fst (d_data d) /\
  data_end <= fst (d_countries d) /\ countries_end <= fst (d_pool d) /\
  fst (d_pool d) + snd (d_pool d) <= N.of_nat (length f).
Proof. exact written_sections. Qed.
Print Assumptions C44_sections.

(** A case that meets the hypotheses of all theorems above: strings, ASes that are
    not added in order and one of them twice, countries in order, a network. *)
Definition str (s : list nat) : option cstr := Some (map N.of_nat s).
Definition hole0 : nat -> N * N * (N * N) := fun _ => (7, 7, (7, 7)).
Definition save0 : save := mkSave 1700000000 1 [] hole0 (81, 81).
Definition calls0 : list call :=
  [SetVendor (str [73; 80]%nat); SetDescription (str [100; 98]%nat); AddAs 64500; AddAs 100; NameAs 0 (str [65; 66]%nat);
   SetLicense (str [67; 67]%nat); AddAs 300; AddAs 100; NameAs 2 (str [69]%nat);
   AddCountry (str [65; 84]%nat); AddCountry (str [68; 69]%nat); AddCountry (str [88; 88]%nat);
   AddCountry (str [70; 82]%nat); NameCountry 5 (str [71]%nat); SetContinent 5 (str [69; 85]%nat);
   AddNet (net_of_addr [0;0;0;0;0;0;0;0;0;0;255;255;10;0;0;0] 8 ((68, 69), 100, 0))].

Example C19_case : Forall call_ok calls0 /\ countries_in_order (meaning calls0) /\
  exists w w' f d, program 0 (fun _ => true) None None calls0 = Ok w /\
    write_to 0 (fun _ => true) None None w save0 = Ok (0%Z, w', f) /\
    N.of_nat (length f) < 2 ^ 32 /\ s_now save0 < 2 ^ 64 /\ db_open f = Ok d /\
    (match get_vendor d with Ok (Some s) => cstr_eqb s [73; 80] | _ => false end &&
     match get_as d 300 with Ok r => match as_name r with Some s => cstr_eqb s [69] | _ => false end | _ => false end &&
     match get_as d 101 with Err 1 => true | _ => false end &&
     match get_country d (str [68; 69]%nat) with Ok (Some y) =>
       match country_get_name y, country_get_continent_code y with
       | Ok (Some s), Some t => cstr_eqb s [71] && cstr_eqb t [69; 85] | _, _ => false end | _ => false end &&
     match get_country d (str [67; 72]%nat) with Ok None => true | _ => false end)%bool = true.
Proof.
  split; [|split].
  - calls.
  - unfold countries_in_order. vm_compute. repeat constructor; vm_compute; auto.
  - apply a_case. vm_compute. reflexivity.
Qed.

(** C25 is false: with the countries in another order one of them is not found. *)
Theorem C25_get_country_refuted : exists os x,
  Forall call_ok os /\ In [68; 69] (map the_code (countries (meaning os))) /\
  exists w w' f d, program 0 (fun _ => true) None None os = Ok w /\
    write_to 0 (fun _ => true) None None w x = Ok (0%Z, w', f) /\
    N.of_nat (length f) < 2 ^ 32 /\ s_now x < 2 ^ 64 /\ db_open f = Ok d /\
    match get_country d (Some [68; 69]) with Ok None => true | _ => false end = true.
Proof.
  exists [AddCountry (str [70; 82]%nat); AddCountry (str [68; 69]%nat)], save0. split; [calls|].
  split; [vm_compute; auto|]. apply a_case. vm_compute. reflexivity.
Qed.
Print Assumptions C25_get_country_refuted.

(** C26 is false: a country without a continent code is read with the one of the
    country before it, and the first one with what was in uninitialised memory. *)
Theorem C26_countries_refuted : exists os x,
  Forall call_ok os /\ map the_continent (countries (meaning os)) = [None; Some [69; 85]; None] /\
  exists w w' f d, program 0 (fun _ => true) None None os = Ok w /\
    write_to 0 (fun _ => true) None None w x = Ok (0%Z, w', f) /\
    N.of_nat (length f) < 2 ^ 32 /\ s_now x < 2 ^ 64 /\ db_open f = Ok d /\
    (match fetch_country d 2 with
     | Ok y => match country_get_continent_code y with Some t => cstr_eqb t [69; 85] | _ => false end
     | _ => false end &&
     match fetch_country d 0 with
     | Ok y => match country_get_continent_code y with Some t => cstr_eqb t [81; 81] | _ => false end
     | _ => false end)%bool = true.
Proof.
  exists [AddCountry (str [65; 84]%nat); AddCountry (str [68; 69]%nat); SetContinent 1 (str [69; 85]%nat);
          AddCountry (str [85; 83]%nat)], save0.
  split; [calls|].
  split; [reflexivity|]. apply a_case. vm_compute. reflexivity.
Qed.
Print Assumptions C26_countries_refuted.
