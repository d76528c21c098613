(** Specification vocabulary for the bindings and the commands. Only the data
    types and functions of the API of the library are used: texts of networks are
    described by what loc_network_new_from_string makes of them. *)
From Coq Require Import String.
From Coq Require Import NArith List Bool Arith.
From Verif Require Import ModelAddress ModelCountryCode ModelNetwork ModelText SpecNetwork SpecText SpecExport SpecWriter.
Import ListNotations.
Open Scope N_scope.

(** ** UTF-8 (RFC 3629) *)
(** characters: no surrogates *)
Definition character (c : N) : Prop := c < 0xD800 \/ 0xE000 <= c < 0x110000.
Definition encoded (c : N) : list N :=
  if c <? 0x80 then [c]
  else if c <? 0x800 then [0xC0 + c / 64; 0x80 + c mod 64]
  else if c <? 0x10000 then [0xE0 + c / 4096; 0x80 + c / 64 mod 64; 0x80 + c mod 64]
  else [0xF0 + c / 262144; 0x80 + c / 4096 mod 64; 0x80 + c / 64 mod 64; 0x80 + c mod 64].
Definition is_text (s : list N) : Prop := exists cs, Forall character cs /\ s = concat (map encoded cs).

(** ** Lines printed for an address *)
Definition or_empty (s : option cstr) : cstr := match s with Some s => s | None => [] end.
(** a label in at least 24 columns, and a value *)
Definition line (label value : list N) : list N :=
  txt "  " ++ label ++ repeat 32 (24 - length label) ++ txt ": " ++ value.
(** the name of a country, or its code if it is not in the database *)
Definition country_shown (c : contents) (code s : cstr) : Prop :=
  (exists x, In x (countries c) /\ the_code x = code /\ s = or_empty (the_country_name x)) \/
  (~ In code (map the_code (countries c)) /\ s = code).
(** the number of an AS, and its name if it is in the database *)
Definition system_shown (c : contents) (asn : N) (s : cstr) : Prop :=
  exists digits, plain_decimal digits asn /\
  ((exists x, In x (ases c) /\ the_number x = asn /\ s = txt "AS" ++ digits ++ txt " - " ++ or_empty (the_name x)) \/
   (~ In asn (map the_number (ases c)) /\ s = txt "AS" ++ digits)).
Definition flag_labels : list (N * list N) :=
  [(0, txt "Anonymous Proxy"); (1, txt "Satellite Provider"); (2, txt "Anycast"); (3, txt "Hostile Network safe to drop")]%string.

(** [lines] are the lines for [address], for which the network [y] was found, with
    the attributes of [z]. *)
Definition shown_for (c : contents) (address : cstr) (y z : network) (lines : list cstr) : Prop :=
  exists text country system,
    lines = (address ++ txt ":") :: line (txt "Network") text :: country ++ system ++
      map (fun f => line (snd f) (txt "yes")) (filter (fun f => N.testbit (n_flags z) (fst f)) flag_labels) /\
    reads text y /\
    match get_country_code z with
    | [] => country = []
    | code => exists s, country_shown c code s /\ country = [line (txt "Country") s]
    end /\
    (n_asn z = 0 /\ system = [] \/
     n_asn z <> 0 /\ exists s, system_shown c (n_asn z) s /\ system = [line (txt "Autonomous System") s]).

(** The addresses for which nothing was found *)
Definition none_for (addresses : list cstr) (results : list (option (list cstr))) : list cstr :=
  map fst (filter (fun x => match snd x with None => true | Some _ => false end) (combine addresses results)).
Definition all_lines (results : list (option (list cstr))) : list cstr :=
  flat_map (fun r => match r with Some l => l | None => [] end) results.

(** The names of the flags in Perl, from bit 0 on *)
Definition perl_flags : list cstr := map txt
  ["LOC_NETWORK_FLAG_ANONYMOUS_PROXY"; "LOC_NETWORK_FLAG_SATELLITE_PROVIDER"; "LOC_NETWORK_FLAG_ANYCAST"; "LOC_NETWORK_FLAG_DROP"]%string.
