(** Specification vocabulary for the commands that list or dump a database. *)
From Coq Require Import String.
From Coq Require Import NArith ZArith List Bool Arith.
From Verif Require Import ModelAddress ModelCountryCode ModelNetwork ModelText ModelExport ModelList SpecTree SpecNetwork SpecText SpecEnum SpecExport SpecWriter SpecCommand.
Import ListNotations.
Open Scope N_scope.

(** The option --family: as text, as a number, and the networks meant *)
Definition version (f : option family) : list N := match f with None => txt "?" | Some AF_INET => txt "4" | Some AF_INET6 => txt "6" end.
Definition option_number (f : option family) : Z := match f with None => 0 | Some AF_INET => 2 | Some AF_INET6 => 10 end.
Definition of_family (f : option family) (n : network) : Prop := match f with None => True | Some f => n_family n = f end.

(** ... as the setting of an enumerator *)
Definition family_setting (f : option family) : list setting := match f with None => [] | Some _ => [SetFamily (option_number f)] end.

(** The formats that can be used on the standard output *)
Definition printable (fmt : format) (f : option family) : Prop :=
  match fmt with Plain | Nftables => True | Ipset => f <> None | XtGeoip => False end.
(** The lines for networks with the given texts; [name] is that of the set *)
Definition set_lines (fmt : format) (name : list N) (f : option family) (texts : list (list N)) : list (list N) :=
  let t := name ++ txt "v" ++ version f in
  match fmt with
  | Plain | XtGeoip => texts
  | Nftables => [txt "define " ++ t ++ txt " = {"] ++ map (fun s => 9 :: s ++ txt ",") texts ++ [txt "}"]
  | Ipset =>
      [txt "create " ++ t ++ txt " hash:net family inet" ++ (match f with Some AF_INET6 => txt "6" | _ => [] end) ++
         txt " hashsize       64 maxelem 1048576 -exist"; txt "flush " ++ t] ++ map (fun s => txt "add " ++ t ++ txt " " ++ s) texts
  end.
(** [lines] list the networks of [L], in this order. *)
Definition lists (fmt : format) (name : list N) (f : option family) (L : list network) (lines : list (list N)) : Prop :=
  exists texts, Forall word texts /\ Forall2 reads texts L /\ lines = set_lines fmt name f texts.

(** A field of a dump: a label in at least 24 columns, and a value *)
Definition dump_line (label value : list N) : list N := label ++ repeat 32 (24 - length label) ++ txt " " ++ value.
Definition dump_labels : list (N * list N) :=
  [(0, txt "is-anonymous-proxy:"); (1, txt "is-satellite-provider:"); (2, txt "is-anycast:"); (3, txt "drop:")]%string.
(** The lines for an AS and for a network *)
Definition dumped_as (number : N) (name : list N) (lines : list (list N)) : Prop :=
  exists digits, plain_decimal digits number /\
  lines = [[]; dump_line (txt "aut-num:") (txt "AS" ++ digits); dump_line (txt "name:") name].
Definition dumped_network (n : network) (lines : list (list N)) : Prop :=
  exists text digits, word text /\ reads text n /\ plain_decimal digits (n_asn n) /\
  lines = [[]; dump_line (txt "net:") text] ++
    (match get_country_code n with [] => [] | c => [dump_line (txt "country:") c] end) ++
    (if n_asn n =? 0 then [] else [dump_line (txt "aut-num:") digits]) ++
    map (fun x => dump_line (snd x) (txt "yes")) (filter (fun x => N.testbit (n_flags n) (fst x)) dump_labels).
(** The lines before them; [t] is the time in text, [about] the lines of the description *)
Definition dump_head (c : contents) (t : list N) (about : list (list N)) : list (list N) :=
  [txt "#"; txt "# Location Database Export"; txt "#"; txt "# Generated: " ++ t] ++
  (match vendor c with [] => [] | s => [txt "# Vendor:    " ++ s] end) ++
  (match license c with [] => [] | s => [txt "# License:   " ++ s] end) ++
  [txt "#"] ++
  (match description c with [] => [] | _ => about ++ [txt "#"] end).

(** The answer to an argument of get-as, if there is one; [int_of] reads numbers. *)
Definition owner_shown (c : contents) (int_of : list N -> option Z) (s : list N) (answer : option (list (list N))) : Prop :=
  match answer with
  | Some l => exists a digits, int_of s = Some (Z.of_N (the_number a)) /\ In a (ases c) /\ plain_decimal digits (the_number a) /\
      l = [txt "AS" ++ digits ++ txt " belongs to " ++ or_empty (the_name a)]
  | None => forall n, int_of s = Some (Z.of_N n) -> ~ In n (map the_number (ases c))
  end.
(** The line for a country *)
Definition country_shown_as (continent name : bool) (z : a_country) : list N :=
  the_code z ++ (if continent then txt " " ++ or_empty (the_continent z) else []) ++
  (if name then txt " " ++ or_empty (the_country_name z) else []).

(** ** Exports *)
(** What the arguments of the export command ask for: numbers of ASes, which may be followed by
    a line feed, codes of countries and the special codes; everything else is left out. *)
Definition names_as (s : list N) (number : N) : Prop :=
  exists digits, decimal digits number /\ (s = txt "AS" ++ digits \/ s = txt "AS" ++ digits ++ [10]).
Definition names_country (s : list N) : Prop := cc_is_valid (Some s) = true \/ exists flag, special s flag.
Inductive asked : list (list N) -> list (list N) -> list N -> Prop :=
| asked_nothing : asked [] [] []
| asked_as s number args codes numbers : names_as s number -> asked args codes numbers -> asked (s :: args) codes (number :: numbers)
| asked_country s args codes numbers : names_country s -> asked args codes numbers -> asked (s :: args) (s :: codes) numbers
| asked_other s args codes numbers : (forall number, ~ names_as s number) -> ~ names_country s -> asked args codes numbers -> asked (s :: args) codes numbers.

Definition version_of (f : family) : list N := match f with AF_INET6 => txt "v6" | AF_INET => txt "v4" end.
Definition suffix (fmt : format) : list N := match fmt with Ipset => txt ".ipset" | Nftables => txt ".set" | _ => txt ".networks" end.
Definition output_name (k : wkey) (name : list N) : Prop :=
  match k with Code c => name = c | Asn a => exists digits, plain_decimal digits a /\ name = txt "AS" ++ digits end.
(** The name of the file for an output and its text for the networks [l] *)
Definition exported_file (fmt : format) (f : family) (k : wkey) (l : list network) (file : list N * list N) : Prop :=
  exists name texts, output_name k name /\ Forall word texts /\ Forall2 reads texts l /\
  let t := name ++ version_of f in
  fst file = t ++ suffix fmt /\
  match fmt with
  | Plain => snd file = flat_map (fun s => s ++ [10]) texts
  | Nftables => snd file = txt "define " ++ t ++ txt " = {" ++ [10] ++ flat_map (fun s => 9 :: s ++ [44; 10]) texts ++ [125; 10]
  | Ipset => exists number size spaces, decimal number size /\
      snd file = txt "create " ++ t ++ txt " hash:net family inet" ++ (match f with AF_INET6 => [54] | AF_INET => [] end) ++
        txt " hashsize " ++ repeat 32 spaces ++ number ++ txt " maxelem 1048576 -exist" ++ [10] ++ txt "flush " ++ t ++ [10] ++
        flat_map (fun s => txt "add " ++ t ++ [32] ++ s ++ [10]) texts
  | XtGeoip => False
  end.
(** The networks of an output: at any address they say what the most specific network of [given]
    says, if it is in the family, was selected and belongs to the output *)
Definition holds_networks (given : list network) (f : family) (countries : list (list N)) (asns : list N) (k : wkey) (l : list network) : Prop :=
  Forall (fun n => valid_network n /\ n_family n = f) l /\ one_after_another l /\
  forall v at_, v < 2 ^ 128 ->
    (exists z, In z l /\ member z v /\ attrs z = at_) <->
    (exists y, most_specific given v y /\ n_family y = f /\ selected countries asns (as_read y) /\ belongs k (as_read y) /\ attrs (as_read y) = at_).
Definition exported (fmt : format) (given : list network) (countries : list (list N)) (asns : list N) (f : family) (files : list (list N * list N)) : Prop :=
  exists outputs, NoDup (map fst outputs) /\ (forall k, requested countries asns k <-> exists l, In (k, l) outputs) /\
    Forall2 (fun o => exported_file fmt f (fst o) (snd o)) outputs files /\
    forall k l, In (k, l) outputs -> holds_networks given f countries asns k l.

(** What is exported if nothing was asked for *)
Definition request (c : contents) (codes : list (list N)) (numbers : list N) : list (list N) :=
  match codes, numbers with [], [] => [txt "A1"; txt "A2"; txt "A3"; txt "XD"] ++ map the_code (countries c) | _, _ => codes end.
