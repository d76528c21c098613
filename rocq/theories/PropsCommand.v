(** C62: the lookup command.

    [beyond], [fuel]: see PropsLookup. [replaced] is what the error handler
    "replace" makes of a string that is not UTF-8, [other] the exception for an
    error in the record of a country. *)
From Coq Require Import String.
From Coq Require Import NArith ZArith List Bool Arith Lia.
From Verif Require Import Base LemmasBase ModelAddress ModelCountryCode ModelNetwork ModelTree ModelStringPool ModelObjects
  ModelText ModelFile ModelWriter ModelDatabase SpecNetwork SpecText SpecStringPool SpecObjects SpecTree SpecWriter
  LemmasTreeProps LemmasDbProps PropsDatabase PropsLookup ModelBindings ModelCommand SpecCommand LemmasBindings LemmasCommand.
Import ListNotations.
Open Scope N_scope.

(** For any list of addresses the lines are printed that describe the network found
    for each of them, with the attributes of the most specific network that was
    added; the exit code says whether nothing was found for some of them.
    Missing: networks with AS numbers from 2^31, names that are not UTF-8, countries
    added out of order (C25), lookups that are undefined (C22). *)
Theorem C62_lookup_partial : forall ctz0 held key1 key2 os w x w' f d,
  Forall call_ok os -> Forall no_save os ->
  program ctz0 held key1 key2 os = Ok w ->
  write_to ctz0 held key1 key2 w x = Ok (0%Z, w', f) ->
  N.of_nat (length f) < 2 ^ 32 -> s_now x < 2 ^ 64 -> db_open f = Ok d ->
  forall beyond fuel replaced other, (129 <= fuel)%nat ->
  countries_in_order (meaning os) ->
  Forall (fun z => match the_country_name z with Some s => is_text s | None => True end) (countries (meaning os)) ->
  Forall (fun z => match the_name z with Some s => is_text s | None => True end) (ases (meaning os)) ->
  (forall z, In z (given os) -> n_asn z < 2 ^ 31) ->
  forall addresses,
  Forall (fun s => is_text s /\ ~ In 0 s /\ exists a p, address_parse false (Some s) = Ok (a, p) /\ lookup beyond d a fuel <> UB) addresses ->
  exists results,
    Forall2 (fun s r => exists a p, address_parse false (Some s) = Ok (a, p) /\
      match r with
      | None => lookup beyond d a fuel = Ok (None, 0%Z)
      | Some lines => exists y z, lookup beyond d a fuel = Ok (Some y, 0%Z) /\ member y (num a) /\
          most_specific (given os) (num a) z /\ shown_for (meaning os) s y z lines
      end) addresses results /\
    lookup_command beyond fuel replaced other d addresses =
      Ok (mkEnded (if existsb (fun r => match r with None => true | _ => false end) results then 1 else 0)
           (all_lines results) (none_for addresses results)).
Proof. exact lookup_command_ok. Qed.
Print Assumptions C62_lookup_partial.

(** Exactly the valid UTF-8 texts can be passed to and from Python. *)
Theorem C62_utf8 : forall s, utf8 s = true <-> is_text s.
Proof. exact utf8_iff. Qed.
Print Assumptions C62_utf8.

(** A case: 10.0.0.0/9 with AS 64496 and country DE, both with names, and networks
    of an AS and a country without an entry. *)
Definition lookup_calls : list call :=
  [AddCountry (Some [68; 69]); NameCountry 0 (Some (txt "Deutschland")); AddAs 64496; NameAs 1 (Some [195; 132; 83]);
   AddNet (net_of_addr (ip4 10 0 0 0) 9 at_de); AddNet (net_of_addr (ip4 11 1 0 0) 16 at_fr)].
Definition command_is (r : outcome ended) (n : N) (lines nothing : list (list N)) : bool :=
  match r with
  | Ok e => (code e =? n) && (if list_eq_dec (list_eq_dec N.eq_dec) (out e) lines then true else false) &&
      (if list_eq_dec (list_eq_dec N.eq_dec) (missing e) nothing then true else false)
  | _ => false
  end.
Example C62_case : Forall call_ok lookup_calls /\ Forall no_save lookup_calls /\ countries_in_order (meaning lookup_calls) /\
  (forall z, In z (given lookup_calls) -> n_asn z < 2 ^ 31) /\
  is_text [195; 132; 83] /\
  exists w w' f d, program 8 (fun _ => true) None None lookup_calls = Ok w /\
    write_to 8 (fun _ => true) None None w save0 = Ok (0%Z, w', f) /\
    N.of_nat (length f) < 2 ^ 32 /\ s_now save0 < 2 ^ 64 /\ db_open f = Ok d /\
    (command_is (lookup_command (fun _ => None) 129 (fun s => s) OSError d [txt "10.1.2.3"; txt "9.9.9.9"; txt "::ffff:11.1.0.0"]) 1
      [txt "10.1.2.3:"; txt "  Network                 : 10.0.0.0/9"; txt "  Country                 : Deutschland";
       txt "  Autonomous System       : AS64496 - " ++ [195; 132; 83];
       txt "::ffff:11.1.0.0:"; txt "  Network                 : 11.1.0.0/16"; txt "  Country                 : FR";
       txt "  Autonomous System       : AS64497"; txt "  Anycast                 : yes"] [txt "9.9.9.9"] &&
     command_is (lookup_command (fun _ => None) 129 (fun s => s) OSError d [txt "10.1.2.3/junk"]) 0
      [txt "10.1.2.3/junk:"; txt "  Network                 : 10.0.0.0/9"; txt "  Country                 : Deutschland";
       txt "  Autonomous System       : AS64496 - " ++ [195; 132; 83]] [])%bool = true.
Proof.
  split; [calls|]. split; [repeat constructor|]. split; [vm_compute; repeat constructor|]. split.
  { intros z. assert (E : map n_asn (given lookup_calls) = [64497; 64496]) by (vm_compute; reflexivity).
    intros I. apply (in_map n_asn) in I. rewrite E in I. destruct I as [<-|[<-|[]]]; reflexivity. }
  split; [apply C62_utf8; reflexivity|]. apply a_case. vm_compute. reflexivity.
Qed.

(** An invalid address is reported with the exit code 1, not with 2 (ValueError), and
    the addresses behind it are not looked up. *)
Theorem C62_invalid_refuted : forall beyond fuel replaced other d s rest,
  is_text s -> ~ In 0 s -> address_parse false (Some s) = Err 1 ->
  lookup_command beyond fuel replaced other d (s :: rest) = Ok (mkEnded 1 [] []).
Proof. exact lookup_invalid. Qed.
Print Assumptions C62_invalid_refuted.

Example C62_invalid_case : is_text (txt "10.0.0.256") /\ ~ In 0 (txt "10.0.0.256") /\ address_parse false (Some (txt "10.0.0.256")) = Err 1.
Proof. split; [apply C62_utf8; reflexivity|]. split; [cbn; intuition discriminate|vm_compute; reflexivity]. Qed.

(** A network with an AS number from 2^31 cannot be described. *)
Theorem C62_asn_refuted : exists os,
  Forall call_ok os /\ Forall no_save os /\ countries_in_order (meaning os) /\
  exists w w' f d, program 8 (fun _ => true) None None os = Ok w /\
    write_to 8 (fun _ => true) None None w save0 = Ok (0%Z, w', f) /\
    N.of_nat (length f) < 2 ^ 32 /\ s_now save0 < 2 ^ 64 /\ db_open f = Ok d /\
    command_is (lookup_command (fun _ => None) 129 (fun s => s) OSError d [txt "10.1.2.3"]) 1
      [txt "10.1.2.3:"; txt "  Network                 : 10.0.0.0/9"; txt "  Country                 : DE"] [] = true.
Proof.
  exists [AddNet (net_of_addr (ip4 10 0 0 0) 9 ((68, 69), 2147483648, 0))].
  split; [calls|]. split; [repeat constructor|]. split; [vm_compute; repeat constructor|]. apply a_case. vm_compute. reflexivity.
Qed.
Print Assumptions C62_asn_refuted.

(** A name that is not UTF-8 is an error as well. *)
Theorem C62_name_refuted : exists os,
  Forall call_ok os /\ Forall no_save os /\ countries_in_order (meaning os) /\
  exists w w' f d, program 8 (fun _ => true) None None os = Ok w /\
    write_to 8 (fun _ => true) None None w save0 = Ok (0%Z, w', f) /\
    N.of_nat (length f) < 2 ^ 32 /\ s_now save0 < 2 ^ 64 /\ db_open f = Ok d /\
    command_is (lookup_command (fun _ => None) 129 (fun s => s) OSError d [txt "10.1.2.3"]) 2
      [txt "10.1.2.3:"; txt "  Network                 : 10.0.0.0/9"] [] = true.
Proof.
  exists [AddCountry (Some [68; 69]); NameCountry 0 (Some [70; 252; 114]); AddNet (net_of_addr (ip4 10 0 0 0) 9 at_de)].
  split; [calls|]. split; [repeat constructor|]. split; [vm_compute; repeat constructor|]. apply a_case. vm_compute. reflexivity.
Qed.
Print Assumptions C62_name_refuted.
