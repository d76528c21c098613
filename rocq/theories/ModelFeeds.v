(** Model of the import of feeds, src/scripts/location-importer.in:2156-2445.
    Each feed is a transaction of its own. The messages that are logged are left out. *)
From Coq Require Import String.
From Coq Require Import NArith ZArith List Bool Arith.
From Verif Require Import Base ModelCountryCode ModelStringPool SpecText ModelImport ModelCompile.
Import ListNotations.
Open Scope N_scope.

(** What json.load() returns. Numbers that are not integers are left out. Of keys that occur
    more than once, only the last one is in the list. *)
Inductive json :=
  | JNull
  | JBool (b : bool)
  | JInt (z : Z)
  | JStr (s : cstr)
  | JList (l : list json)
  | JObj (l : list (cstr * json)).
(** dict.get() *)
Fixpoint member (l : list (cstr * json)) (key : cstr) : json :=
  match l with
  | [] => JNull
  | (k, v) :: l' => if cstr_eqb k key then v else member l' key
  end.
Fixpoint member_or (l : list (cstr * json)) (key : cstr) (default : json) : json :=
  match l with
  | [] => default
  | (k, v) :: l' => if cstr_eqb k key then v else member_or l' key default
  end.
(** bool() *)
Definition true_ish (j : json) : bool :=
  match j with
  | JNull => false
  | JBool b => b
  | JInt z => negb (z =? 0)%Z
  | JStr s => negb (length s =? 0)%nat
  | JList l => negb (length l =? 0)%nat
  | JObj l => negb (length l =? 0)%nat
  end.

(** location-importer.in:250-273 *)
Record feeds := mkFeeds {
  fd_networks : list (pnet * cstr * attrs);   (* network, source *)
  fd_autnums : list (Z * cstr * attrs)        (* number, source *)
}.

(** 46-50 VALID_ASN_RANGES, 1213-1225 _check_parsed_asn *)
Definition valid_asn_ranges : list (Z * Z) := [(1, 23455); (23457, 64495); (131072, 4199999999)]%Z.
Definition check_parsed_asn (z : Z) : bool := existsb (fun r => (fst r <=? z) && (z <=? snd r))%Z valid_asn_ranges.

(** 2224-2272 *)
Definition aws_region_country_map : list (cstr * cstr) :=
  [(txt "af-south-1", txt "ZA"); (txt "il-central-1", txt "IL"); (txt "ap-northeast-1", txt "JP"); (txt "ap-northeast-2", txt "KR");
   (txt "ap-northeast-3", txt "JP"); (txt "ap-east-1", txt "HK"); (txt "ap-south-1", txt "IN"); (txt "ap-south-2", txt "IN");
   (txt "ap-southeast-1", txt "SG"); (txt "ap-southeast-2", txt "AU"); (txt "ap-southeast-3", txt "MY"); (txt "ap-southeast-4", txt "AU");
   (txt "ap-southeast-5", txt "MY"); (txt "ap-southeast-6", txt "AP"); (txt "ap-southeast-7", txt "AP"); (txt "ca-central-1", txt "CA");
   (txt "ca-west-1", txt "CA"); (txt "eu-central-1", txt "DE"); (txt "eu-central-2", txt "CH"); (txt "eu-north-1", txt "SE");
   (txt "eu-west-1", txt "IE"); (txt "eu-west-2", txt "GB"); (txt "eu-west-3", txt "FR"); (txt "eu-south-1", txt "IT");
   (txt "eu-south-2", txt "ES"); (txt "me-central-1", txt "AE"); (txt "me-south-1", txt "BH"); (txt "mx-central-1", txt "MX");
   (txt "sa-east-1", txt "BR"); (txt "eusc-de-east-1", txt "DE")].
Fixpoint lookup (l : list (cstr * cstr)) (key : cstr) : option cstr :=
  match l with
  | [] => None
  | (k, v) :: l' => if cstr_eqb k key then Some v else lookup l' key
  end.
Definition starts (prefix s : cstr) : bool := cstr_eqb (firstn (length prefix) s) prefix.

Section Feeds.
  (** bytes.decode("utf-8"); str.isspace of a character *)
  Variable decode : list N -> option cstr.
  Variable space : N -> bool.
  (** ipaddress.ip_network(); a number is an address *)
  Variable py_net : cstr -> option pnet.
  Variable py_net_int : Z -> option pnet.
  Variables is_global is_unspecified : pnet -> bool.
  (** json.load() of the octets of a file, json.loads() of a line *)
  Variable py_json : cstr -> option json.
  Variable py_json_file : list (list N) -> option json.
  (** the lines of the file at a URL; [None] if the downloader raises an exception *)
  Variable web : cstr -> option (list (list N)).

  (** 2274-2275 *)
  Definition aws_prefixes (feed : json) : option (list json) :=
    match feed with
    | JObj l =>
        match member_or l (txt "ipv6_prefixes") (JList []), member_or l (txt "prefixes") (JList []) with
        | JList a, JList b => Some (a ++ b)
        | JStr [], JStr [] => Some []
        | _, _ => None   (* TypeError, or AttributeError for the characters of a string *)
        end
    | _ => None
    end.
  Definition aws_network (j : json) : option pnet :=
    match j with
    | JStr s => py_net s
    | JInt z => py_net_int z
    | JBool b => py_net_int (if b then 1%Z else 0%Z)
    | _ => None
    end.
  (** 2277-2321. If there is no network, NameError is raised instead of ValueError. *)
  Definition aws_prefix (prefix : json) : imported (pnet * attrs) :=
    match prefix with
    | JObj l =>
        let network := if true_ish (member l (txt "ipv6_prefix")) then member l (txt "ipv6_prefix") else member l (txt "ip_prefix") in
        match aws_network network with
        | None => Raised
        | Some n =>
            if negb (check_parsed_network is_global is_unspecified n) then Skipped
            else
              match member l (txt "region") with
              | JStr region =>
                  match lookup aws_region_country_map region with
                  | Some cc => Row (n, mkAttrs (Some cc) None None (Some false) None)
                  | None =>
                      if cstr_eqb region (txt "GLOBAL") then Row (n, mkAttrs None None None (Some true) None)
                      else if starts (txt "us-") region then Row (n, mkAttrs (Some (txt "US")) None None (Some false) None)
                      else if starts (txt "cn-") region then Row (n, mkAttrs (Some (txt "CN")) None None (Some false) None)
                      else Skipped
                  end
              | _ => Raised   (* AttributeError, TypeError *)
              end
        end
    | _ => Raised
    end.
  (** ON CONFLICT (network, source) DO NOTHING *)
  Fixpoint insert_first (l : list json) (t : list (pnet * attrs)) : option (list (pnet * attrs)) :=
    match l with
    | [] => Some t
    | p :: l' => match aws_prefix p with
                 | Row (n, a) => insert_first l' (if existsb (fun r => pnet_eqb (fst r) n) t then t else t ++ [(n, a)])
                 | Skipped => insert_first l' t
                 | Raised => None
                 end
    end.
  (** 2215-2339 _import_aws_ip_ranges *)
  Definition import_aws (lines : list (list N)) : option (list (pnet * attrs)) :=
    match py_json_file lines with
    | None => None
    | Some feed => match aws_prefixes feed with Some l => insert_first l [] | None => None end
    end.

  Definition dropped : attrs := mkAttrs None None None None (Some true).
  Definition SEMICOLON : N := 59.
  (** 2341-2395 _import_spamhaus_drop: [seen] if there was a line. A second INSERT of the same
      network is an error. *)
  Fixpoint drop_lines (lines : list (list N)) (seen : bool) (t : list (pnet * attrs)) : option (list (pnet * attrs)) :=
    match lines with
    | [] => if seen then Some t else None
    | l :: lines' =>
        match decode l with
        | None => None
        | Some line =>
            match fst (partition SEMICOLON line) with
            | [] => drop_lines lines' seen t
            | line =>
                match py_net (strip space line) with
                | None => drop_lines lines' true t
                | Some n =>
                    if negb (check_parsed_network is_global is_unspecified n) then drop_lines lines' true t
                    else if existsb (fun r => pnet_eqb (fst r) n) t then None
                    else drop_lines lines' true (t ++ [(n, dropped)])
                end
            end
        end
    end.
  Definition import_drop (lines : list (list N)) : option (list (pnet * attrs)) := drop_lines lines false [].

  (** 2402-2429: the number in a line of the list of ASes *)
  Definition asndrop_line (l : list N) : imported Z :=
    match decode l with
    | None => Raised
    | Some line =>
        match py_json line with
        | None => Skipped
        | Some (JObj m) =>
            if match member m (txt "type") with JStr s => cstr_eqb s (txt "metadata") | _ => false end then Skipped
            else
              match member m (txt "asn") with
              | JInt z => if (z =? 0)%Z then Skipped else if check_parsed_asn z then Row z else Skipped
              | j => if true_ish j then Raised (* TypeError; True is no integer for PostgreSQL *) else Skipped
              end
        | Some _ => Raised
        end
    end.
  (** 2397-2445 _import_spamhaus_asndrop *)
  Fixpoint asndrop_lines (lines : list (list N)) (t : list (Z * attrs)) : option (list (Z * attrs)) :=
    match lines with
    | [] => Some t
    | l :: lines' =>
        match asndrop_line l with
        | Raised => None
        | Skipped => asndrop_lines lines' t
        | Row z => if existsb (fun r => (fst r =? z)%Z) t then None else asndrop_lines lines' (t ++ [(z, dropped)])
        end
    end.
  Definition import_asndrop (lines : list (list N)) : option (list (Z * attrs)) := asndrop_lines lines [].

  (** what a callback inserts *)
  Inductive inserted := Networks (l : list (pnet * attrs)) | Autnums (l : list (Z * attrs)).
  Definition networks (o : option (list (pnet * attrs))) : option inserted := match o with Some l => Some (Networks l) | None => None end.
  Definition autnums (o : option (list (Z * attrs))) : option inserted := match o with Some l => Some (Autnums l) | None => None end.
  (** 2162-2173 *)
  Definition all_feeds : list (cstr * (list (list N) -> option inserted) * cstr) :=
    [(txt "AWS-IP-RANGES", (fun f => networks (import_aws f)), txt "https://ip-ranges.amazonaws.com/ip-ranges.json");
     (txt "SPAMHAUS-DROP", (fun f => networks (import_drop f)), txt "https://www.spamhaus.org/drop/drop.txt");
     (txt "SPAMHAUS-DROPV6", (fun f => networks (import_drop f)), txt "https://www.spamhaus.org/drop/dropv6.txt");
     (txt "SPAMHAUS-ASNDROP", (fun f => autnums (import_asndrop f)), txt "https://www.spamhaus.org/drop/asndrop.json")].
  (** 2199-2213 _process_feed *)
  Definition process_feed (name : cstr) (callback : list (list N) -> option inserted) (url : cstr) (st : feeds) : option feeds :=
    match web url with
    | None => None
    | Some f =>
        let nets := filter (fun r => negb (cstr_eqb (snd (fst r)) name)) (fd_networks st) in
        let ases := filter (fun r => negb (cstr_eqb (snd (fst r)) name)) (fd_autnums st) in
        match callback f with
        | None => None
        | Some (Networks l) => Some (mkFeeds (nets ++ map (fun r => (fst r, name, snd r)) l) ases)
        | Some (Autnums l) => Some (mkFeeds nets (ases ++ map (fun r => (fst r, name, snd r)) l))
        end
    end.
  Definition requested (wanted : list cstr) (name : cstr) : bool :=
    match wanted with [] => true | _ => existsb (cstr_eqb name) wanted end.
  Fixpoint process_feeds (l : list (cstr * (list (list N) -> option inserted) * cstr)) (wanted : list cstr) (st : feeds) (success : bool) : feeds * bool :=
    match l with
    | [] => (st, success)
    | (name, callback, url) :: l' =>
        if negb (requested wanted name) then process_feeds l' wanted st success
        else match process_feed name callback url st with
             | Some st' => process_feeds l' wanted st' success
             | None => process_feeds l' wanted st false
             end
    end.
  (** 2156-2197 handle_update_feeds: the tables and the exit code *)
  Definition update_feeds (wanted : list cstr) (st : feeds) : feeds * Z :=
    let sources := map (fun f => fst (fst f)) all_feeds in
    let known {K} (r : K * cstr * attrs) := existsb (cstr_eqb (snd (fst r))) sources in
    let (st, success) := process_feeds all_feeds wanted (mkFeeds (filter known (fd_networks st)) (filter known (fd_autnums st))) true in
    (st, if success then 0%Z else 1%Z).
End Feeds.
