(** Model of src/python/location/export.py and of Database.search_networks in
    src/python/database.c. *)
From Coq Require Import String.
From Coq Require Import NArith ZArith List Bool Arith.
From Verif Require Import Base ModelAddress ModelCountryCode ModelNetwork ModelNetworkList ModelStringPool ModelObjects
  ModelFile ModelDatabase ModelEnum ModelText SpecText ModelDownload.
Import ListNotations.
Open Scope N_scope.

(** export.py:34-39 FLAGS, with the numbers of libloc/network.h:27-30 *)
Definition FLAGS : list (N * cstr) := [(1, txt "A1"); (2, txt "A2"); (4, txt "A3"); (8, txt "XD")]%string.

(** database.c:290-390 Database_search_networks: the lists are filled one by one,
    an invalid code is an exception. Numbers are passed as uint32_t. *)
Fixpoint add_codes (l : olist country) (codes : list cstr) : outcome (olist country) :=
  match codes with
  | [] => Ok l
  | c :: codes' => do x <- country_new 0 (Some c); do l <- olist_append country_cmp l x; add_codes l codes'
  end.
Fixpoint add_asns (l : olist as_obj) (asns : list N) : outcome (olist as_obj) :=
  match asns with
  | [] => Ok l
  | a :: asns' => do l <- olist_append as_cmp l (as_new 0 (a mod 2 ^ 32)); add_asns l asns'
  end.
Definition search_networks (codes : list cstr) (asns : list N) (family : Z) : outcome enum :=
  do cl <- add_codes olist_new codes;
  do al <- add_asns olist_new asns;
  let e := enum_set_asns (enum_set_countries (enum_new Networks true) cl) al in
  Ok (if (family =? 0)%Z then e else enum_set_family e family).

(** The keys of the dictionary of writers and what has been written to each; one
    entry per key, in the order of insertion. *)
Inductive wkey := Code (c : cstr) | Asn (a : N).
Definition wkey_eqb (x y : wkey) : bool :=
  match x, y with
  | Code c, Code c' => cstr_eqb c c'
  | Asn a, Asn a' => a =? a'
  | _, _ => false
  end.
Definition writers := list (wkey * list network).

(** writers[k] = self.writer(...): a new, empty output *)
Fixpoint new_writer (ws : writers) (k : wkey) : writers :=
  match ws with
  | [] => [(k, [])]
  | (k', l) :: ws' => if wkey_eqb k' k then (k', []) :: ws' else (k', l) :: new_writer ws' k
  end.
(** writers[k].write(network), nothing if there is no such key *)
Definition wwrite (k : wkey) (n : network) (ws : writers) : writers :=
  map (fun w => if wkey_eqb (fst w) k then (fst w, snd w ++ [n]) else w) ws.

(** export.py:252-257 *)
Definition make_writers (countries : list cstr) (asns : list N) : writers :=
  fold_left new_writer (map Asn asns) (fold_left new_writer (map Code countries) []).

(** export.py:260-262 *)
Definition is_special (c : cstr) : bool := existsb (fun f => cstr_eqb (snd f) c) FLAGS.
Definition country_codes (countries : list cstr) : list cstr := filter (fun c => negb (is_special c)) countries.

(** export.py:269-291: one network; network.asn is None for 0 (network.c:119-126),
    which is not a key. *)
Definition export_one (ws : writers) (n : network) : writers :=
  let ws := wwrite (Code (get_country_code n)) n ws in
  let ws := if n_asn n =? 0 then ws else wwrite (Asn (n_asn n)) n ws in
  fold_left (fun ws f => if has_flag n (fst f) =? 0 then ws else wwrite (Code (snd f)) n ws) FLAGS ws.

(** export.py:264-291 for the networks that the search returns *)
Definition export_networks (countries : list cstr) (asns : list N) (networks : list network) : writers :=
  fold_left export_one networks (make_writers countries asns).

(** ** The text that is written *)
(** "%s" % network; the state of the buffers of loc_address_str makes no
    difference (C10_round_trip). *)
Definition net_text (n : network) : cstr :=
  match network_str ring0 n with Ok (_, Some s) => s | _ => [] end.
Definition NL : N := 10.

(** export.py:78-84 _make_tag *)
Definition tag (name : cstr) (f : family) : cstr :=
  name ++ txt "v" ++ match f with AF_INET6 => txt "6" | AF_INET => txt "4" end.

(** export.py:103-110 OutputWriter *)
Definition list_file (networks : list network) : cstr := flat_map (fun n => net_text n ++ [NL]) networks.

(** export.py:198-211 NftablesOutputWriter; 9 is the tabulator *)
Definition nft_file (t : cstr) (networks : list network) : cstr :=
  txt "define " ++ t ++ txt " = {" ++ [NL] ++
  flat_map (fun n => 9 :: net_text n ++ txt "," ++ [NL]) networks ++ txt "}" ++ [NL].

(** export.py:130-195 IpsetOutputWriter. [hashsize] is the result of the property
    for the number of networks (floating point arithmetic, not modelled); it is 64
    when the header is written first. "%8d" is padded with spaces. The footer
    seeks to the start and writes the header again. *)
Definition pad8 (s : cstr) : cstr := repeat 32 (8 - length s) ++ s.
Definition ipset_header (t : cstr) (f : family) (hashsize : N) : cstr :=
  txt "create " ++ t ++ txt " hash:net family inet" ++ match f with AF_INET6 => txt "6" | AF_INET => [] end ++
  txt " hashsize " ++ pad8 (dec hashsize) ++ txt " maxelem 1048576 -exist" ++ [NL] ++
  txt "flush " ++ t ++ [NL].
Definition ipset_line (t : cstr) (n : network) : cstr := txt "add " ++ t ++ txt " " ++ net_text n ++ [NL].
Definition ipset_file (t : cstr) (f : family) (hashsize : N) (networks : list network) : cstr :=
  let file := fwrite (mkFile [] 0) (ipset_header t f 64) in
  let file := fold_left (fun file n => fwrite file (ipset_line t n)) networks file in
  let file := mkFile (content file) 0 in (* seek(0) *)
  content (fwrite file (ipset_header t f hashsize)).
