(** Model of the import of overrides, src/scripts/location-importer.in:1996-2154 and 2446-2526.
    All of it is one transaction: after an exception, which is [None], nothing has changed.
    The messages that are logged are left out. *)
From Coq Require Import String.
From Coq Require Import NArith ZArith List Bool Arith.
From Verif Require Import Base ModelCountryCode ModelStringPool SpecText ModelImport ModelCompile ModelGeofeed.
Import ListNotations.
Open Scope N_scope.

Definition COLON : N := 58.
(** location-importer.in:223-247 and 275-299 *)
Record overrides := mkOv {
  ov_networks : list (pnet * attrs);
  ov_autnums : list (Z * (option cstr * attrs));
  ov_geo : geo;
  ov_links : list (pnet * cstr * cstr)     (* network_geofeeds: network, url and source *)
}.
(** What a block asks for *)
Inductive change :=
  | Net (n : pnet) (a : attrs)
  | As (number : Z) (name : option cstr) (a : attrs)
  | Feed (url : cstr) (permitted : list pnet)
  | Nothing.

Section Overrides.
  (** the octets of a line as text; str.isspace of a character; str.lower() *)
  Variable decode : list N -> cstr.
  Variable space : N -> bool.
  Variable lower : cstr -> cstr.
  (** ip_network(s, strict=False) and ip_network(s) *)
  Variables py_net py_net_strict : cstr -> option pnet.
  (** the integer PostgreSQL reads from a text that is sent for a column of type bigint *)
  Variable bigint : cstr -> option Z.
  (** urllib.parse.urlparse(): scheme and geturl(); [None] for a ValueError *)
  Variable urlparse : cstr -> option (cstr * cstr).

  (** 2500-2526 read_blocks. Here a dictionary is the list of all its assignments. The
      networks of geofeeds, which are appended to a list, are all values of the key. *)
  Fixpoint read_block (block : list cstr) : option (list (cstr * cstr)) :=
    match block with
    | [] => Some []
    | line :: block' =>
        match partition COLON line with
        | (key, Some value) =>
            match read_block block' with
            | Some data => Some ((key, strip space value) :: data)
            | None => None
            end
        | (_, None) => None   (* ValueError: not enough values to unpack *)
        end
    end.
  (** dict.get *)
  Fixpoint get (data : list (cstr * cstr)) (key : cstr) : option cstr :=
    match data with
    | [] => None
    | (k, v) :: data' => match get data' key with
                         | Some w => Some w
                         | None => if cstr_eqb k key then Some v else None
                         end
    end.
  Definition get_all (data : list (cstr * cstr)) (key : cstr) : list cstr :=
    map snd (filter (fun d => cstr_eqb (fst d) key) data).
  (** 2446-2466 *)
  Definition parse_bool (data : list (cstr * cstr)) (key : cstr) : option bool :=
    match get data key with
    | None => None
    | Some val =>
        let val := lower val in
        if cstr_eqb val (txt "yes") || cstr_eqb val (txt "1") then Some true
        else if cstr_eqb val (txt "no") || cstr_eqb val (txt "0") then Some false
        else None
    end.
  Definition get_attrs (data : list (cstr * cstr)) : attrs :=
    mkAttrs (get data (txt "country")) (parse_bool data (txt "is-anonymous-proxy"))
      (parse_bool data (txt "is-satellite-provider")) (parse_bool data (txt "is-anycast")) (parse_bool data (txt "drop")).
  (** psycopg refuses text with a NUL *)
  Definition sendable (s : option cstr) : bool := match s with Some s => negb (has_nul s) | None => true end.
  (** 1227-1248 _check_geofeed_url *)
  Definition check_geofeed_url (url : cstr) : option cstr :=
    match urlparse url with
    | None => None
    | Some (scheme, url) => if cstr_eqb scheme (txt "https") then Some url else None
    end.
  Definition defaults : list pnet := [mkP 128 0 0; mkP 32 0 0].
  Fixpoint networks_of (l : list cstr) : list pnet :=
    match l with
    | [] => []
    | s :: l' => match py_net_strict s with Some n => n :: networks_of l' | None => networks_of l' end
    end.

  (** 2010-2154; [None]: an exception. The key of the first line is always found. *)
  Definition parse_block (block : list cstr) : option change :=
    match read_block block with
    | None => None
    | Some [] => Some Nothing
    | Some (((type, _) :: _) as data) =>
        if cstr_eqb type (txt "net") then
          match get data (txt "net") with
          | None => None
          | Some network =>
              match py_net network with
              | None => Some Nothing
              | Some n =>
                  if p_len n =? 0 then Some Nothing
                  else if sendable (get data (txt "country")) then Some (Net n (get_attrs data)) else None
              end
          end
        else if cstr_eqb type (txt "aut-num") then
          match get data (txt "aut-num") with
          | None => None
          | Some autnum =>
              if negb (cstr_eqb (firstn 2 autnum) (txt "AS")) then Some Nothing
              else if sendable (get data (txt "name")) && sendable (get data (txt "country")) then
                match bigint (skipn 2 autnum) with
                | Some z => Some (As z (get data (txt "name")) (get_attrs data))
                | None => None   (* InvalidTextRepresentation, NumericValueOutOfRange *)
                end
              else None
          end
        else if cstr_eqb type (txt "geofeed") then
          match get data (txt "geofeed") with
          | None => None
          | Some url =>
              let networks := match networks_of (get_all data (txt "network")) with [] => defaults | l => l end in
              match check_geofeed_url url with
              | None | Some [] => Some Nothing
              | Some url => if sendable (Some url) then Some (Feed url networks) else None
              end
          end
        else Some Nothing
    end.

  (** INSERT ... ON CONFLICT DO NOTHING *)
  Definition keep_first {K A} (eqb : K -> K -> bool) (k : K) (a : A) (t : list (K * A)) : list (K * A) :=
    if existsb (fun r => eqb (fst r) k) t then t else t ++ [(k, a)].
  (** INSERT ... ON CONFLICT (network, url) DO UPDATE SET source = excluded.source *)
  Definition same_link (n : pnet) (url : cstr) (r : pnet * cstr * cstr) : bool :=
    pnet_eqb (fst (fst r)) n && cstr_eqb (snd (fst r)) url.
  Definition permit (url source : cstr) (t : list (pnet * cstr * cstr)) (n : pnet) : list (pnet * cstr * cstr) :=
    if existsb (same_link n url) t then map (fun r => if same_link n url r then (fst r, source) else r) t
    else t ++ [(n, url, source)].
  Definition apply (st : overrides) (c : change) : overrides :=
    match c with
    | Net n a => mkOv (keep_first pnet_eqb n a (ov_networks st)) (ov_autnums st) (ov_geo st) (ov_links st)
    | As z name a => mkOv (ov_networks st) (keep_first Z.eqb z (name, a) (ov_autnums st)) (ov_geo st) (ov_links st)
    | Feed url l => mkOv (ov_networks st) (ov_autnums st) (link url (ov_geo st)) (fold_left (permit url (txt "overrides")) l (ov_links st))
    | Nothing => st
    end.
  Fixpoint apply_blocks (blocks : list (list cstr)) (st : overrides) : option overrides :=
    match blocks with
    | [] => Some st
    | b :: blocks' => match parse_block b with
                      | Some c => apply_blocks blocks' (apply st c)
                      | None => None
                      end
    end.
  Fixpoint apply_files (files : list (list (list N))) (st : overrides) : option overrides :=
    match files with
    | [] => Some st
    | f :: files' => match apply_blocks (iterate_over_blocks space decode f) st with
                     | Some st' => apply_files files' st'
                     | None => None
                     end
    end.
  (** 1996-2006 handle_update_overrides; [files] are the lines of the files, all of which can be read *)
  Definition update_overrides (files : list (list (list N))) (st : overrides) : option overrides :=
    apply_files files (mkOv [] [] (ov_geo st) (filter (fun r => negb (cstr_eqb (snd r) (txt "overrides"))) (ov_links st))).
End Overrides.

(** ** Countries, 2468-2488 *)
Section Countries.
  Variable space : N -> bool.
  (** the text up to white space, and the rest *)
  Fixpoint token (s : cstr) : cstr * cstr :=
    match s with
    | [] => ([], [])
    | c :: s' => if space c then ([], s) else let (x, y) := token s' in (c :: x, y)
    end.
  (** str.split(maxsplit=n): white space between words does not matter; what is left is one word *)
  Fixpoint split_words (n : nat) (s : cstr) : list cstr :=
    match lstrip space s with
    | [] => []
    | (_ :: _) as s =>
        match n with
        | O => [s]
        | S n' => let (x, y) := token s in x :: split_words n' y
        end
    end.
  (** a line of a file opened as text; [Raised]: psycopg refuses a NUL *)
  Definition country_line (line : cstr) : imported (cstr * (cstr * cstr)) :=
    let line := rstrip space line in
    if starts_with HASH line then Skipped
    else match split_words 2 line with
         | [code; continent; name] =>
             if has_nul code || has_nul continent || has_nul name then Raised else Row (code, (continent, name))
         | _ => Skipped
         end.
  Fixpoint country_lines (lines : list cstr) (t : list (cstr * (cstr * cstr))) : option (list (cstr * (cstr * cstr))) :=
    match lines with
    | [] => Some t
    | l :: lines' => match country_line l with
                     | Row (k, a) => country_lines lines' (keep_first cstr_eqb k a t)
                     | Skipped => country_lines lines' t
                     | Raised => None
                     end
    end.
  (** 2468-2488 handle_import_countries: what the table has afterwards *)
  Definition import_countries (files : list (list cstr)) : option (list (cstr * (cstr * cstr))) := country_lines (concat files) [].
End Countries.
