(** Model of the commands of src/scripts/location.in that list networks, ASes and
    countries, dump a database or export it, and of the functions of
    src/python/database.c they call. Messages are not translated, as in the C locale. *)
From Coq Require Import String.
From Coq Require Import NArith ZArith List Bool Arith.
From Verif Require Import Base ModelAddress ModelCountryCode ModelNetwork ModelNetworkList ModelStringPool ModelObjects ModelText SpecText
  ModelFile ModelDatabase ModelEnum ModelExport ModelDownload ModelUpdate ModelBindings ModelCommand.
Import ListNotations.
Open Scope N_scope.

(** The objects an iterator returns *)
Inductive item := INet (n : network) | IAs (a : as_obj) | ICountry (c : country).

(** The --format option *)
Inductive format := Ipset | Plain | Nftables | XtGeoip.

(** "%s" % number *)
Definition z_text (z : Z) : cstr := if (z <? 0)%Z then 45 :: dec (Z.to_N (- z)) else dec (Z.to_N z).

Section Commands.
(** bits beyond the address, numbers of steps (ModelEnum), objects of an iterator *)
Variable beyond : nat -> option N.
Variable fuel : nat.
Variable objects : nat.
(** what the "replace" error handler makes of a string that is not UTF-8 *)
Variable replaced : cstr -> cstr.
(** int(...) of Python *)
Variable int_of : cstr -> option Z.
(** the lines that str.splitlines and str.rstrip make of the description *)
Variable described : cstr -> list cstr.
(** IpsetOutputWriter.hashsize for a number of networks *)
Variable hashsize : nat -> N.
Variable d : db.

(** ** Iterators *)
(** A call of the library: an error is a ValueError *)
Definition checked {A} (m : outcome (enum * option A * Z)) : py (enum * option A) :=
  match m with
  | Ok (e, x, r) => if (r =? 0)%Z then value (e, x) else raise ValueError
  | Err _ => raise ValueError
  | UB => UB
  | Fuel => Fuel
  end.
(** python/database.c:604-657 DatabaseEnumerator_next; None is StopIteration *)
Definition py_next (e : enum) : py (enum * option item) :=
  pbind (checked (next_network beyond d fuel None e)) (fun x =>
  match x with
  | (e, Some n) => value (e, Some (INet n))
  | (e, None) =>
      pbind (checked (next_as d e)) (fun x =>
      match x with
      | (e, Some a) => value (e, Some (IAs a))
      | (e, None) =>
          pbind (checked (next_country d e)) (fun x =>
          match x with
          | (e, Some c) => value (e, Some (ICountry c))
          | (e, None) => value (e, None)
          end)
      end)
  end).
(** for i in ...: *)
Fixpoint py_for (k : nat) (e : enum) (body : item -> printing) : printing :=
  match k with
  | O => Fuel
  | S k' => with_ (py_next e) (fun x =>
      match x with
      | (_, None) => printed []
      | (e, Some i) => then_ (body i) (py_for k' e body)
      end)
  end.

(** python/database.c:244-262 Database_iterate_all *)
Definition iterate_all (mode : enum_mode) (family : Z) (flatten : bool) : enum :=
  if (family =? 0)%Z then enum_new mode flatten else enum_set_family (enum_new mode flatten) family.
(** python/database.c:268-289 Database_search_as *)
Definition py_search_as (query : cstr) : py enum :=
  pbind (py_arg query) (fun query => value (enum_set_string (enum_new Ases false) query)).
(** python/database.c:369 PyLong_AsLong, then a uint32_t; after an overflow the search goes
    on and ends with a SystemError, as a result is returned with an exception set. *)
Definition py_long (n : Z) : py N :=
  if (- 2 ^ 63 <=? n)%Z && (n <? 2 ^ 63)%Z then value (Z.to_N (n mod 2 ^ 32)) else raise SystemError.
Fixpoint py_longs (l : list Z) : py (list N) :=
  match l with
  | [] => value []
  | n :: l' => pbind (py_long n) (fun n => pbind (py_longs l') (fun r => value (n :: r)))
  end.
(** python/database.c:300-437 Database_search_networks; see [search_networks] *)
Definition py_search_networks (codes : option (list cstr)) (asns : option (list Z)) (flags : N) (family : Z) (flatten : bool) : py enum :=
  let e := enum_new Networks flatten in
  pbind (match codes with
         | None => value e
         | Some codes =>
             match add_codes olist_new codes with
             | Ok l => value (enum_set_countries e l)
             | Err _ => raise ValueError
             | UB => UB
             | Fuel => Fuel
             end
         end) (fun e =>
  pbind (match asns with
         | None => value e
         | Some asns => pbind (py_longs asns) (fun asns => do l <- add_asns olist_new asns; value (enum_set_asns e l))
         end) (fun e =>
  let e := if flags =? 0 then e else enum_set_flag e flags in
  value (if (family =? 0)%Z then e else enum_set_family e family))).

(** ** Output *)
(** "%s" % object: python/network.c:92-104, as.c:71-79, country.c:78-80 *)
Definition item_text (i : item) : py cstr :=
  match i with
  | INet n => py_network_str n
  | IAs a => value (py_as_str replaced a)
  | ICountry c => py_text (cc_str (c_code c))
  end.

(** export.py:78-84 _make_tag; [family] is 0 if none was given *)
Definition tag_of (name : cstr) (family : Z) : cstr :=
  name ++ txt "v" ++ (if (family =? 10)%Z then txt "6" else if (family =? 2)%Z then txt "4" else txt "?").
(** export.py:48-70, 139-145, 165-172, 198-199, 218-220: the lines of the header. The
    assignment to self.tag fails for xt_geoip, where it is a property. *)
Definition header (fmt : format) (name : cstr) (family : Z) : printing :=
  match fmt with
  | Plain => printed []
  | Nftables => printed [txt "define " ++ tag_of name family ++ txt " = {"]
  | Ipset =>
      if (family =? 0)%Z then Ok ([], Some ValueError)
      else printed [txt "create " ++ tag_of name family ++ txt " hash:net family inet" ++
                      (if (family =? 10)%Z then txt "6" else []) ++ txt " hashsize " ++ pad8 (dec 64) ++ txt " maxelem 1048576 -exist";
                    txt "flush " ++ tag_of name family]
  | XtGeoip => Ok ([], Some AttributeError)
  end.
(** export.py:103-104, 174-178, 204-205: a line for a network *)
Definition entry (fmt : format) (name : cstr) (family : Z) (s : cstr) : cstr :=
  match fmt with
  | Plain | XtGeoip => s
  | Nftables => 9 :: s ++ txt ","
  | Ipset => txt "add " ++ tag_of name family ++ txt " " ++ s
  end.
(** export.py:96-100, 180-190, 201-202: the standard output cannot be rewound, so the header for
    ipset is not written again. *)
Definition footer (fmt : format) : printing := match fmt with Nftables => printed [txt "}"] | _ => printed [] end.

(** location.in:517-523 and the same loop in the other commands *)
Definition list_networks (fmt : format) (name : cstr) (family : Z) (search : py enum) : printing :=
  then_ (header fmt name family)
  (with_ search (fun e =>
   then_ (py_for objects e (fun i => with_ (item_text i) (fun s => printed [entry fmt name family s])))
   (footer fmt))).

(** location.in:233-251 for a command that returns nothing *)
Definition ends (m : printing) : outcome ended :=
  do x <- m; Ok (mkEnded (match snd x with Some e => exit_code e | None => 0 end) (fst x) []).

(** location.in:513-523 handle_list_networks_by_as; there is exactly one argument *)
Definition list_by_as (fmt : format) (family : Z) (asn : Z) : outcome ended :=
  ends (list_networks fmt (txt "AS" ++ z_text asn) family (py_search_networks None (Some [asn]) 0 family false)).
(** location.in:525-536 handle_list_networks_by_cc *)
Definition list_by_cc (fmt : format) (family : Z) (code : cstr) : outcome ended :=
  ends (list_networks fmt code family (py_search_networks (Some [code]) None 0 family false)).
(** location.in:538-562 handle_list_networks_by_flags *)
Definition list_by_flags (fmt : format) (family : Z) (anonymous_proxy satellite_provider anycast drop : bool) : outcome ended :=
  let flags := N.lor (N.lor (N.lor (if anonymous_proxy then 1 else 0) (if satellite_provider then 2 else 0))
                 (if anycast then 4 else 0)) (if drop then 8 else 0) in
  if flags =? 0 then ends (Ok ([], Some ValueError))
  else ends (list_networks fmt (txt "custom") family (py_search_networks None None flags family false)).
(** location.in:564-571 handle_list_bogons *)
Definition list_bogons (fmt : format) (family : Z) : outcome ended :=
  ends (list_networks fmt (txt "bogons") family (value (iterate_all Bogons family false))).

(** ** Countries and ASes *)
(** " ".join(...), where None is a TypeError *)
Fixpoint join (l : list (option cstr)) : option cstr :=
  match l with
  | [] => Some []
  | [s] => s
  | s :: l' => match s, join l' with Some s, Some r => Some (s ++ txt " " ++ r) | _, _ => None end
  end.
(** A getter that is only called if the option is given *)
Definition column (shown : bool) (m : py (option cstr)) : py (list (option cstr)) :=
  if shown then pbind m (fun s => value [s]) else value [].
(** location.in:495-511 handle_list_countries *)
Definition country_line (continent name : bool) (c : country) : printing :=
  with_ (py_text (cc_str (c_code c))) (fun code =>
  with_ (column continent (match country_get_continent_code c with
                           | None => value None
                           | Some s => pbind (py_text s) (fun s => value (Some s))
                           end)) (fun a =>
  with_ (column name (py_country_name c)) (fun b =>
  match join (Some code :: a ++ b) with Some s => printed [s] | None => Ok ([], Some TypeError) end))).
Definition list_countries (continent name : bool) : outcome ended :=
  ends (py_for objects (iterate_all Countries 0 false) (fun i =>
    match i with ICountry c => country_line continent name c | _ => Ok ([], Some AttributeError) end)).

(** python/database.c:142-166 Database_get_as for any number; see [py_get_as] *)
Definition py_get_as_int (n : Z) : py (option as_obj) :=
  if (n <? - 2 ^ 31)%Z || (2 ^ 31 <=? n)%Z then raise OverflowError
  else match get_as d (Z.to_N (n mod 2 ^ 32)) with
       | Ok a => value (Some a)
       | Err r => if (r =? 1)%Z then value None else raise SystemError
       | UB => UB
       | Fuel => Fuel
       end.
(** python/as.c:87-91 AS_get_name *)
Definition py_as_name (a : as_obj) : py cstr := match as_name a with None => UB | Some s => py_text s end.
(** location.in:391-416 handle_get_as; [missing] are the arguments for which there is a message
    on the standard error *)
Fixpoint handle_get_as (ret : N) (asns : list cstr) (lines none : list cstr) : outcome ended :=
  match asns with
  | [] => Ok (mkEnded ret lines none)
  | s :: rest =>
      match int_of s with
      | None => handle_get_as 1 rest lines (none ++ [s])
      | Some n =>
          do x <- py_get_as_int n;
          match x with
          | inr e => Ok (mkEnded (exit_code e) lines none)
          | inl None => handle_get_as 1 rest lines (none ++ [s])
          | inl (Some a) =>
              do name <- py_as_name a;
              match name with
              | inr e => Ok (mkEnded (exit_code e) lines none)
              | inl name => handle_get_as ret rest (lines ++ [txt "AS" ++ dec (as_number a) ++ txt " belongs to " ++ name]) none
              end
          end
      end
  end.
Definition get_as_command (asns : list cstr) : outcome ended := handle_get_as 0 asns [] [].
(** location.in:418-422 handle_search_as; there is exactly one argument *)
Definition search_as_command (query : cstr) : outcome ended :=
  ends (with_ (py_search_as query) (fun e =>
    py_for objects e (fun i => with_ (item_text i) (fun s => printed [s])))).

(** ** location.in:333-389 handle_dump *)
(** "%-24s %s" % (label, value) *)
Definition field (label value : cstr) : cstr := label ++ repeat 32 (24 - length label) ++ txt " " ++ value.
(** a string of the metadata that is printed unless it is None or empty *)
Definition metadata (m : outcome (option cstr)) (f : cstr -> list cstr) : printing :=
  with_ (do s <- m; match s with None => value None | Some s => pbind (py_text s) (fun s => value (Some s)) end)
    (fun s => printed (match s with None | Some [] => [] | Some s => f s end)).
Definition dump_as (a : as_obj) : printing :=
  then_ (printed [[]; field (txt "aut-num:") (txt "AS" ++ dec (as_number a))])
  (with_ (py_as_name a) (fun name => printed [field (txt "name:") name])).
Definition dump_flags : list (N * cstr) :=
  [(1, txt "is-anonymous-proxy:"); (2, txt "is-satellite-provider:"); (4, txt "is-anycast:"); (8, txt "drop:")]%string.
Definition dump_network (n : network) : printing :=
  then_ (printed [[]])
  (then_ (with_ (py_network_str n) (fun s => printed [field (txt "net:") s]))
  (then_ (with_ (py_country_code n) (fun c => printed (match c with [] => [] | _ => [field (txt "country:") c] end)))
  (then_ (printed (match py_asn n with None => [] | Some a => [field (txt "aut-num:") (dec a)] end))
  (printed (flat_map (fun f => if py_has_flag n (fst f) then [field (snd f) (txt "yes")] else []) dump_flags))))).
(** gmtime and strftime (ModelUpdate) need [years] steps *)
Definition dump (years : nat) : outcome ended :=
  ends
  (then_ (printed [txt "#"; txt "# Location Database Export"; txt "#"])
  (then_ (match time_text (py_created_at d) years with Some t => printed [txt "# Generated: " ++ t] | None => Fuel end)
  (then_ (metadata (get_vendor d) (fun s => [txt "# Vendor:    " ++ s]))
  (then_ (metadata (get_license d) (fun s => [txt "# License:   " ++ s]))
  (then_ (printed [txt "#"])
  (then_ (metadata (get_description d) (fun s => described s ++ [txt "#"]))
  (then_ (py_for objects (iterate_all Ases 0 false) (fun i => match i with IAs a => dump_as a | _ => Ok ([], Some AttributeError) end))
  (py_for objects (iterate_all Networks 0 false) (fun i => match i with INet n => dump_network n | _ => Ok ([], Some AttributeError) end))))))))).

(** ** location.in:573-605 handle_export *)
Definition is_digit (c : N) : bool := (48 <=? c) && (c <=? 57).
Fixpoint digits_value (s : cstr) (v : N) : N := match s with [] => v | c :: s' => digits_value s' (v * 10 + (c - 48)) end.
(** the regular expression ^AS(\d+)$; digits of other scripts than ASCII are left out *)
Definition as_argument (s : cstr) : option N :=
  match s with
  | 65 :: 83 :: r =>
      let r := match rev r with 10 :: r' => rev r' | _ => r end in
      match r with [] => None | _ => if forallb is_digit r then Some (digits_value r 0) else None end
  | _ => None
  end.
(** location.in:582-595: country codes and numbers *)
Fixpoint arguments (l : list cstr) : list cstr * list N :=
  match l with
  | [] => ([], [])
  | s :: l' =>
      let (countries, asns) := arguments l' in
      match as_argument s with
      | Some n => (countries, n :: asns)
      | None => if cc_is_valid (Some s) || is_special s then (s :: countries, asns) else (countries, asns)
      end
  end.
(** The codes of all countries in the database *)
Fixpoint all_codes (k : nat) (e : enum) : py (list cstr) :=
  match k with
  | O => Fuel
  | S k' => pbind (py_next e) (fun x =>
      match x with
      | (_, None) => value []
      | (e, Some (ICountry c)) => pbind (py_text (cc_str (c_code c))) (fun s => pbind (all_codes k' e) (fun r => value (s :: r)))
      | (_, Some _) => raise AttributeError
      end)
  end.
(** Networks of an iterator *)
Fixpoint all_networks (k : nat) (e : enum) : py (list network) :=
  match k with
  | O => Fuel
  | S k' => pbind (py_next e) (fun x =>
      match x with
      | (_, None) => value []
      | (e, Some (INet n)) => pbind (all_networks k' e) (fun r => value (n :: r))
      | (_, Some _) => raise AttributeError
      end)
  end.
(** The name of the output and its contents, export.py:86-89, 241-300; suffixes are
    export.py:43, 117, 196 *)
Definition key_name (k : wkey) : cstr := match k with Code c => c | Asn a => txt "AS" ++ dec a end.
Definition file_of (fmt : format) (f : family) (w : wkey * list network) : cstr * cstr :=
  let t := tag (key_name (fst w)) f in
  match fmt with
  | Ipset => (t ++ txt ".ipset", ipset_file t f (hashsize (length (snd w))) (snd w))
  | Nftables => (t ++ txt ".set", nft_file t (snd w))
  | _ => (t ++ txt ".networks", list_file (snd w))
  end.
Fixpoint export_families (fmt : format) (countries : list cstr) (asns : list N) (families : list family) : py (list (cstr * cstr)) :=
  match families with
  | [] => value []
  | f :: families' =>
      match fmt, countries, asns with
      | XtGeoip, _ :: _, _ | XtGeoip, _, _ :: _ => raise AttributeError
      | _, _, _ =>
          pbind (py_search_networks (Some (country_codes countries)) (Some (map Z.of_N asns)) 0 (family_number f) true) (fun e =>
          pbind (all_networks objects e) (fun networks =>
          pbind (export_families fmt countries asns families') (fun files =>
          value (map (file_of fmt f) (export_networks countries asns networks) ++ files))))
      end
  end.
(** The files, one after the other; they are printed if there is no directory. *)
Definition export_command (fmt : format) (family : option family) (args : list cstr) : py (list (cstr * cstr)) :=
  let families := match family with Some f => [f] | None => [AF_INET6; AF_INET] end in
  let (countries, asns) := arguments args in
  pbind (match countries, asns with
         | [], [] => pbind (all_codes objects (iterate_all Countries 0 false)) (fun l => value (map snd FLAGS ++ l))
         | _, _ => value countries
         end) (fun countries => export_families fmt countries asns families).
End Commands.
