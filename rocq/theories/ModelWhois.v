(** Model of the import of WHOIS data, src/scripts/location-importer.in:835-1160 and 1250-1496.
    A source is one transaction: after an exception, which is [None], nothing has changed.
    All values that are sent to the database depend on the files only, so that first the
    statements of all files are determined and then carried out. The messages that are
    logged are left out. *)
From Coq Require Import String.
From Coq Require Import NArith ZArith List Bool Arith.
From Verif Require Import Base ModelCountryCode ModelStringPool SpecText ModelImport ModelCompile ModelGeofeed ModelOverrides ModelFeeds.
Import ListNotations.
Open Scope N_scope.

(** location-importer.in:205-208, 215-219 and 242-245. A source that is NULL is here a
    text that is no name of a source. *)
Record whois := mkWhois {
  w_autnums : list (Z * (cstr * cstr));                       (* number; name and source *)
  w_networks : list (pnet * (option cstr * list cstr * cstr)); (* country, original_countries and source *)
  w_links : list (pnet * cstr * cstr)                          (* network_geofeeds: network, url and source *)
}.
(** 915-931 the temporary tables; the source is the same in all rows *)
Record temp := mkTemp {
  t_autnums : list (Z * cstr);
  t_orgs : list (cstr * cstr);
  t_rir : list (pnet * (option cstr * list cstr))
}.
(** The statements. A number is what PostgreSQL reads from the text. *)
Inductive stmt :=
  | PutOrg (handle name : cstr)                              (* 1492-1496 *)
  | DummyOrg (handle name : cstr)                            (* 1297-1300 *)
  | PutAs (number : Z) (organization : cstr)                 (* 1307-1311 *)
  | PutNet (n : pnet) (country : option cstr) (all : list cstr) (* 1425-1441 *)
  | PutLink (n : pnet) (url : cstr)                          (* 1457-1475 *)
  | PutNetwork (n : pnet) (country : cstr)                   (* 1570-1586 *)
  | AddAs (number : Z) (name : cstr).                        (* 1141-1160 *)

(** INSERT ... ON CONFLICT DO UPDATE *)
Fixpoint upsert {K V} (eqb : K -> K -> bool) (k : K) (new : V) (merge : V -> V) (t : list (K * V)) : list (K * V) :=
  match t with
  | [] => [(k, new)]
  | (k', v) :: t' => if eqb k' k then (k', merge v) :: t' else (k', v) :: upsert eqb k new merge t'
  end.

(** 52-63 *)
Definition ignored_countries : list cstr := [txt "YU"; txt "ZZ"].
Definition translate (cc : cstr) : cstr := if cstr_eqb cc (txt "UK") then txt "GB" else cc.

Section Whois.
  (** the octets of a line as text, in iterate_over_blocks() and in iterate_over_lines() *)
  Variable decode : list N -> cstr.
  Variable decode_strict : list N -> option cstr.
  (** str.isspace and \s, \d of a character; str.upper() *)
  Variables space digit : N -> bool.
  Variable upper : cstr -> cstr.
  Variable py_int : cstr -> option Z.
  Variable py_log2 : Z -> option Z.
  Variable py_addr : cstr -> option (N * N).
  (** ip_network(s, strict=False) *)
  Variable py_net : cstr -> option pnet.
  Variables is_global is_unspecified : pnet -> bool.
  Variable urlparse : cstr -> option (cstr * cstr).

  (** 2491-2498 split_line *)
  Definition split_line (line : cstr) : cstr * cstr :=
    let (key, val) := partition COLON line in (strip space key, strip space (match val with Some v => v | None => [] end)).
  (** the longest run of digits *)
  Fixpoint digits (s : cstr) : cstr := match s with c :: s' => if digit c then c :: digits s' else [] | [] => [] end.
  (** 1272: re.match(): AS or as and digits *)
  Definition match_asn (val : cstr) : option cstr :=
    if starts (txt "AS") val || starts (txt "as") val then match digits (skipn 2 val) with [] => None | d => Some d end else None.
  (** the number PostgreSQL reads from a text for a column of type integer *)
  Definition pg_integer (s : cstr) : option Z :=
    if forallb is_digit s then
      let n := fold_left (fun x c => 10 * x + (c - 48)) s 0 in
      if n <? 2 ^ 31 then Some (Z.of_N n) else None
    else None.

  (** 1266-1311 _parse_autnum_block *)
  Fixpoint autnum_lines (block : list cstr) (asn org descr : option cstr) : option cstr * option cstr * option cstr :=
    match block with
    | [] => (asn, org, descr)
    | line :: block' =>
        let (key, val) := split_line line in
        if cstr_eqb key (txt "aut-num") then
          autnum_lines block' (match match_asn val with Some d => Some d | None => asn end) org descr
        else if cstr_eqb key (txt "org") then autnum_lines block' asn (Some (upper val)) descr
        else if cstr_eqb key (txt "descr") then
          autnum_lines block' asn org (match descr with Some d => Some d | None => Some val end)
        else autnum_lines block' asn org descr
    end.
  Definition dummy_handle (asn : cstr) : cstr := txt "LIBLOC-" ++ asn ++ txt "-ORGHANDLE".
  Definition autnum_block (block : list cstr) : option (list stmt) :=
    match autnum_lines block None None None with
    | (None, _, _) => Some []
    | (Some asn, Some org, _) =>
        match pg_integer asn with
        | Some z => if has_nul org then None else Some [PutAs z org]
        | None => None
        end
    | (Some asn, None, Some descr) =>
        match pg_integer asn with
        | Some z => if has_nul descr then None else Some [DummyOrg (dummy_handle asn) descr; PutAs z (dummy_handle asn)]
        | None => None
        end
    | (Some _, None, None) => Some []
    end.

  (** 1477-1496 _parse_org_block; a handle or name that is NULL violates a constraint *)
  Fixpoint org_lines (block : list cstr) (handle name : option cstr) : option cstr * option cstr :=
    match block with
    | [] => (handle, name)
    | line :: block' =>
        let (key, val) := split_line line in
        if cstr_eqb key (txt "organisation") then org_lines block' (Some (upper val)) name
        else if cstr_eqb key (txt "org-name") then org_lines block' handle (Some val)
        else org_lines block' handle name
    end.
  Definition org_block (block : list cstr) : option (list stmt) :=
    match org_lines block None None with
    | (None, None) => Some []
    | (Some handle, Some name) => if has_nul handle || has_nul name then None else Some [PutOrg handle name]
    | _ => None
    end.

  (** 1322: re.match() of the name of a network that is managed by another registry *)
  Definition digit_at (s : cstr) : bool := match s with c :: _ => digit c | [] => false end.
  (** three or more digits or dashes, SLASH and one or two digits; [n] characters so far *)
  Fixpoint stub (n : nat) (s : cstr) : bool :=
    match s with
    | [] => false
    | c :: s' => if digit c || (c =? 45) then stub (S n) s'
                 else (3 <=? n)%nat && starts (txt "SLASH") s && digit_at (skipn 5 s)
    end.
  Definition historic (name : cstr) : bool :=
    starts (txt "ERX-NETBLOCK") name || starts (txt "AFRINIC-CIDR-BLOCK") name || starts (txt "ARIN-CIDR-BLOCK") name ||
    starts (txt "LACNIC-CIDR-BLOCK") name || starts (txt "RIPE-CIDR-BLOCK") name ||
    (starts (txt "IANA-NETBLOCK-") name && digit_at (skipn 14 name)) ||
    starts (txt "NON-RIPE-NCC-MANAGED-ADDRESS-BLOCK") name ||
    (starts (txt "STUB-") name && stub O (skipn 5 name)).
  (** 1406: the URL in a remark: Geofeed, white space and a text that begins with https; a
      line has no newline *)
  Definition match_remark (val : cstr) : option cstr :=
    if starts (txt "Geofeed") val then
      match skipn 7 val with
      | c :: s => if space c then let url := lstrip space s in if starts (txt "https://") url then Some url else None else None
      | [] => None
      end
    else None.
  (** 1313-1447 _parse_inetnum_block *)
  Record inet := mkInet { i_six : option (list pnet); i_four : option (list pnet); i_countries : list cstr; i_geofeed : option cstr }.
  (** [Skipped]: the block is left out; [Raised]: an exception *)
  Fixpoint inet_lines (countries : list cstr) (block : list cstr) (i : inet) : imported inet :=
    match block with
    | [] => Row i
    | line :: block' =>
        let (key, val) := split_line line in
        if cstr_eqb key (txt "netname") && historic (strip space val) then Skipped
        else if cstr_eqb key (txt "inetnum") then
          match inetnum py_addr space py_net val with
          | Row l => inet_lines countries block' (mkInet (i_six i) (Some l) (i_countries i) (i_geofeed i))
          | Skipped => Skipped
          | Raised => Raised
          end
        else if cstr_eqb key (txt "inet6num") then
          match py_net val with
          | Some n => inet_lines countries block' (mkInet (Some [n]) (i_four i) (i_countries i) (i_geofeed i))
          | None => Raised   (* ValueError *)
          end
        else if cstr_eqb key (txt "country") then
          let cc := upper val in
          if existsb (cstr_eqb cc) ignored_countries then inet_lines countries block' i
          else if negb (existsb (cstr_eqb (translate cc)) countries) then inet_lines countries block' i
          else inet_lines countries block' (mkInet (i_six i) (i_four i) (i_countries i ++ [translate cc]) (i_geofeed i))
        else if cstr_eqb key (txt "geofeed") then
          inet_lines countries block' (mkInet (i_six i) (i_four i) (i_countries i) (Some val))
        else if cstr_eqb key (txt "remarks") then
          inet_lines countries block' (match match_remark val with
                                       | Some url => mkInet (i_six i) (i_four i) (i_countries i) (Some url)
                                       | None => i
                                       end)
        else inet_lines countries block' i
    end.
  (** 1449-1475 _parse_geofeed *)
  Definition geofeed_stmts (geofeed : option cstr) (n : pnet) : option (list stmt) :=
    match geofeed with
    | None | Some [] => Some []
    | Some url => match check_geofeed_url urlparse url with
                  | None | Some [] => Some []
                  | Some url => if has_nul url then None else Some [PutLink n url]
                  end
    end.
  Fixpoint net_stmts (countries : list cstr) (geofeed : option cstr) (l : list pnet) : option (list stmt) :=
    match l with
    | [] => Some []
    | n :: l' =>
        if check_parsed_network is_global is_unspecified n then
          match geofeed_stmts geofeed n, net_stmts countries geofeed l' with
          | Some g, Some r => Some (PutNet n (hd_error countries) countries :: g ++ r)
          | _, _ => None
          end
        else net_stmts countries geofeed l'
    end.
  Definition inetnum_block (countries : list cstr) (block : list cstr) : option (list stmt) :=
    match inet_lines countries block (mkInet None None [] None) with
    | Raised => None
    | Skipped => Some []
    | Row i =>
        match i_six i, i_four i with
        | Some ((_ :: _) as l), _ => net_stmts (i_countries i) (i_geofeed i) l
        | _, Some l => net_stmts (i_countries i) (i_geofeed i) l
        | _, None => match i_six i, i_countries i, i_geofeed i with
                     | None, [], None => Some []
                     | _, _, _ => None   (* TypeError: None is not iterable *)
                     end
        end
    end.

  (** 1250-1264 _parse_block *)
  Definition whois_block (countries : list cstr) (block : list cstr) : option (list stmt) :=
    match block with
    | [] => None   (* not reached: there are no empty blocks *)
    | line :: _ =>
        if starts (txt "aut-num:") line then autnum_block block
        else if starts (txt "inet6num:") line || starts (txt "inetnum:") line then inetnum_block countries block
        else if starts (txt "organisation:") line then org_block block
        else Some []
    end.
  Fixpoint gather {A} (f : A -> option (list stmt)) (l : list A) : option (list stmt) :=
    match l with
    | [] => Some []
    | x :: l' => match f x, gather f l' with Some a, Some b => Some (a ++ b) | _, _ => None end
    end.
  (** 1100-1105 _import_extended_format *)
  Definition extended_line (countries : list cstr) (line : list N) : option (list stmt) :=
    match decode_strict line with
    | None => None
    | Some text => match parse_line py_int py_log2 py_addr is_global is_unspecified countries (rstrip space text) with
                   | Row (n, cc) => Some [PutNetwork n cc]
                   | Skipped => Some []
                   | Raised => None
                   end
    end.
  (** 1107-1160 _import_arin_as_names. [py_csv] is csv.DictReader; the values a row has for
      four keys, [None] if there is none. *)
  Record arin := mkArin { ar_status : option cstr; ar_name : option cstr; ar_first : option cstr; ar_last : option cstr }.
  Variable py_csv : list (list N) -> option (list arin).
  Definition zrange (first last : Z) : list Z := map (fun k => (first + Z.of_nat k)%Z) (seq 0 (Z.to_nat (last + 1 - first))).
  Definition arin_row (r : arin) : option (list stmt) :=
    if match ar_status r with Some s => cstr_eqb s (txt "Full Registry Services") | None => false end then
      match ar_first r with
      | None => Some []   (* TypeError *)
      | Some a =>
          match py_int a with
          | None => None   (* ValueError *)
          | Some a =>
              match ar_last r with
              | None => Some []
              | Some b =>
                  match py_int b with
                  | None => None
                  | Some b =>
                      match filter check_parsed_asn (zrange a b), ar_name r with
                      | [], _ => Some []
                      | _, None => None   (* name is NULL *)
                      | l, Some name => if has_nul name then None else Some (map (fun z => AddAs z name) l)
                      end
                  end
              end
          end
      end
    else Some [].

  Inductive format := Standard | Extended | ArinNames.
  Definition feed_stmts (countries : list cstr) (fmt : format) (f : list (list N)) : option (list stmt) :=
    match fmt with
    | Standard => gather (whois_block countries) (iterate_over_blocks space decode f)
    | Extended => gather (extended_line countries) f
    | ArinNames => match py_csv f with Some rows => gather arin_row rows | None => None end
    end.

  Definition exec (source : cstr) (s : temp * whois) (q : stmt) : temp * whois :=
    let (t, w) := s in
    match q with
    | PutOrg h name => (mkTemp (t_autnums t) (upsert cstr_eqb h name (fun _ => name) (t_orgs t)) (t_rir t), w)
    | DummyOrg h name => (mkTemp (t_autnums t) (upsert cstr_eqb h name (fun v => v) (t_orgs t)) (t_rir t), w)
    | PutAs z h => (mkTemp (upsert Z.eqb z h (fun _ => h) (t_autnums t)) (t_orgs t) (t_rir t), w)
    | PutNet n cc all => (mkTemp (t_autnums t) (t_orgs t) (upsert pnet_eqb n (cc, all) (fun v => (cc, snd v)) (t_rir t)), w)
    | PutLink n url =>
        (t, mkWhois (w_autnums w) (w_networks w)
              (upsert (fun a b => pnet_eqb (fst a) (fst b) && cstr_eqb (snd a) (snd b)) (n, url) source (fun _ => source) (w_links w)))
    | PutNetwork n cc =>
        (t, mkWhois (w_autnums w) (upsert pnet_eqb n (Some cc, [cc], source) (fun v => (Some cc, snd (fst v), snd v)) (w_networks w)) (w_links w))
    | AddAs z name => (t, mkWhois (upsert Z.eqb z (name, txt "ARIN") (fun v => v) (w_autnums w)) (w_networks w) (w_links w))
    end.
  (** 909-913 *)
  Definition delete_source (source : cstr) (w : whois) : whois :=
    mkWhois (filter (fun r => negb (cstr_eqb (snd (snd r)) source)) (w_autnums w))
            (filter (fun r => negb (cstr_eqb (snd (snd r)) source)) (w_networks w))
            (filter (fun r => negb (cstr_eqb (snd r) source)) (w_links w)).
  Fixpoint find_key {K V} (eqb : K -> K -> bool) (k : K) (t : list (K * V)) : option V :=
    match t with [] => None | (k', v) :: t' => if eqb k' k then Some v else find_key eqb k t' end.
  (** 942-1059: rows are only added *)
  Definition copy_rir (source : cstr) (rir : list (pnet * (option cstr * list cstr)))
      (t : list (pnet * (option cstr * list cstr * cstr))) : list (pnet * (option cstr * list cstr * cstr)) :=
    let have := map (fun r => mkRow (fst r) (fst (fst (snd r)))) t in
    let all := copy_networks (map (fun r => mkRow (fst r) (fst (snd r))) rir) have in
    t ++ map (fun r => (r_net r, (r_country r, match find_key pnet_eqb (r_net r) rir with Some v => snd v | None => [] end, source)))
           (skipn (length have) all).
  (** 1061-1085 *)
  Definition join_names (source : cstr) (t : temp) (l : list (Z * (cstr * cstr))) : list (Z * (cstr * cstr)) :=
    fold_left (fun l r => match find_key cstr_eqb (snd r) (t_orgs t) with
                          | Some name => upsert Z.eqb (fst r) (name, source) (fun v => (name, snd v)) l
                          | None => l
                          end) (t_autnums t) l.
  Definition finish (source : cstr) (s : temp * whois) : whois :=
    let (t, w) := s in mkWhois (join_names source t (w_autnums w)) (copy_rir source (t_rir t) (w_networks w)) (w_links w).

  (** what the downloader returns for a URL; [None] for an exception *)
  Variable web : cstr -> option (list (list N)).
  (** 903-1085 _process_source *)
  Definition process_source (countries : list cstr) (source : cstr) (feeds : list (format * cstr)) (w : whois) : option whois :=
    match gather (fun feed => match web (snd feed) with Some f => feed_stmts countries (fst feed) f | None => None end) feeds with
    | None => None
    | Some l => Some (finish source (fold_left (exec source) l (mkTemp [] [] [], delete_source source w)))
    end.
  (** 839-877 *)
  Definition whois_sources : list (cstr * list (format * cstr)) :=
    [(txt "AFRINIC", [(Standard, txt "https://ftp.afrinic.net/pub/pub/dbase/afrinic.db.gz")]);
     (txt "APNIC", [(Standard, txt "https://ftp.apnic.net/apnic/whois/apnic.db.inet6num.gz");
                    (Standard, txt "https://ftp.apnic.net/apnic/whois/apnic.db.inetnum.gz");
                    (Standard, txt "https://ftp.apnic.net/apnic/whois/apnic.db.aut-num.gz");
                    (Standard, txt "https://ftp.apnic.net/apnic/whois/apnic.db.organisation.gz")]);
     (txt "ARIN", [(Extended, txt "https://ftp.arin.net/pub/stats/arin/delegated-arin-extended-latest");
                   (ArinNames, txt "https://ftp.arin.net/pub/resource_registry_service/asns.csv")]);
     (txt "JPNIC", [(Standard, txt "https://ftp.nic.ad.jp/jpirr/jpirr.db.gz")]);
     (txt "LACNIC", [(Standard, txt "https://ftp.lacnic.net/lacnic/dbase/lacnic.db.gz");
                     (Extended, txt "https://ftp.lacnic.net/pub/stats/lacnic/delegated-lacnic-extended-latest")]);
     (txt "RIPE", [(Standard, txt "https://ftp.ripe.net/ripe/dbase/split/ripe.db.inet6num.gz");
                   (Standard, txt "https://ftp.ripe.net/ripe/dbase/split/ripe.db.inetnum.gz");
                   (Standard, txt "https://ftp.ripe.net/ripe/dbase/split/ripe.db.aut-num.gz");
                   (Standard, txt "https://ftp.ripe.net/ripe/dbase/split/ripe.db.organisation.gz")])].
  Fixpoint process_sources (countries : list cstr) (wanted : list cstr) (l : list (cstr * list (format * cstr))) (w : whois) (success : bool) : whois * bool :=
    match l with
    | [] => (w, success)
    | (name, feeds) :: l' =>
        if negb (requested wanted name) then process_sources countries wanted l' w success
        else match process_source countries name feeds w with
             | Some w' => process_sources countries wanted l' w' success
             | None => process_sources countries wanted l' w false
             end
    end.
  (** 835-901 handle_update_whois: the tables and the exit code *)
  Definition update_whois (countries wanted : list cstr) (w : whois) : whois * Z :=
    match countries with
    | [] => (w, 1%Z)
    | _ => let (w, success) := process_sources countries wanted whois_sources w true in (w, if success then 0%Z else 1%Z)
    end.
End Whois.
