(** What is claimed about the import of WHOIS data *)
From Coq Require Import String.
From Coq Require Import NArith ZArith List Bool.
From Verif Require Import Base ModelCountryCode SpecText ModelImport SpecImport ModelCompile ModelGeofeed SpecGeofeed ModelOverrides SpecOverrides ModelFeeds SpecFeeds ModelWhois.
Import ListNotations.
Open Scope N_scope.

(** the last and the first one of a list that says something about a key *)
Definition last_says {B K A} (P : B -> K -> A -> Prop) (l : list B) (k : K) (a : A) : Prop :=
  exists x b y, l = x ++ b :: y /\ P b k a /\ forall b' a', In b' y -> ~ P b' k a'.
Definition nobody {B K A} (P : B -> K -> A -> Prop) (l : list B) (k : K) : Prop := forall b a, In b l -> ~ P b k a.
(** the last and the first line with a value *)
Definition last_line {A} (P : cstr -> A -> Prop) (b : list cstr) (a : A) : Prop :=
  exists x l y, b = x ++ l :: y /\ P l a /\ forall l' a', In l' y -> ~ P l' a'.
Definition first_line {A} (P : cstr -> A -> Prop) (b : list cstr) (a : A) : Prop :=
  exists x l y, b = x ++ l :: y /\ P l a /\ forall l' a', In l' x -> ~ P l' a'.
Definition no_line {A} (P : cstr -> A -> Prop) (b : list cstr) : Prop := forall l a, In l b -> ~ P l a.
(** the values of all lines that have one, in order *)
Inductive all_lines {A} (P : cstr -> A -> Prop) : list cstr -> list A -> Prop :=
  | all_none : all_lines P [] []
  | all_skip : forall l b r, (forall a, ~ P l a) -> all_lines P b r -> all_lines P (l :: b) r
  | all_take : forall l b a r, P l a -> all_lines P b r -> all_lines P (l :: b) (a :: r).

Inductive item := Block (b : list cstr) | Line (l : list N) | Csv (r : arin).

Section Whois.
  Variable decode : list N -> cstr.
  Variable decode_strict : list N -> option cstr.
  Variables space digit : N -> bool.
  Variable upper : cstr -> cstr.
  Variable py_int : cstr -> option Z.
  Variable py_log2 : Z -> option Z.
  Variable py_addr : cstr -> option (N * N).
  Variable py_net : cstr -> option pnet.
  Variables is_global is_unspecified : pnet -> bool.
  Variable urlparse : cstr -> option (cstr * cstr).
  Variable py_csv : list (list N) -> option (list arin).
  Variable web : cstr -> option (list (list N)).
  Variable countries : list cstr.

  (** a line has the key and the value *)
  Definition attr (key : cstr) (line val : cstr) : Prop :=
    exists k v, trimmed space k key /\ trimmed space v val /\ plain COLON k /\ (line = k ++ COLON :: v \/ (line = k /\ v = [])).
  Definition begins (p : cstr) (line : cstr) : Prop := exists x, line = p ++ x.
  Definition of_type (b : list cstr) (p : cstr) : Prop := exists l r, b = l :: r /\ begins p l.

  (** *** Numbers and names of ASes *)
  (** the digits of a number *)
  Definition asn_line (line d : cstr) : Prop :=
    exists val x, attr (txt "aut-num") line val /\ (val = txt "AS" ++ d ++ x \/ val = txt "as" ++ d ++ x) /\
      d <> [] /\ Forall (fun c => digit c = true) d /\ (forall c y, x = c :: y -> digit c = false).
  (** decimal digits and the number, which has to be less than 2^31 *)
  Inductive decimal : cstr -> N -> Prop :=
    | decimal_nil : decimal [] 0
    | decimal_snoc : forall s n c, decimal s n -> 48 <= c <= 57 -> decimal (s ++ [c]) (10 * n + (c - 48)).
  Definition integer (d : cstr) (z : Z) : Prop := exists n, decimal d n /\ n < 2 ^ 31 /\ z = Z.of_N n.
  Definition org_line (line org : cstr) : Prop := exists val, attr (txt "org") line val /\ org = upper val.
  (** the handle an AS has: that of its organisation, or one made up for its description *)
  Definition handle_is (b : list cstr) (d h : cstr) : Prop :=
    last_line org_line b h \/
    (no_line org_line b /\ (exists descr, first_line (attr (txt "descr")) b descr) /\ h = txt "LIBLOC-" ++ d ++ txt "-ORGHANDLE").
  Definition as_says (i : item) (z : Z) (h : cstr) : Prop :=
    exists b d, i = Block b /\ of_type b (txt "aut-num:") /\ last_line asn_line b d /\ integer d z /\ handle_is b d h.
  Definition dummy_says (i : item) (h name : cstr) : Prop :=
    exists b d, i = Block b /\ of_type b (txt "aut-num:") /\ last_line asn_line b d /\
      no_line org_line b /\ first_line (attr (txt "descr")) b name /\ h = txt "LIBLOC-" ++ d ++ txt "-ORGHANDLE".
  Definition handle_line (line h : cstr) : Prop := exists val, attr (txt "organisation") line val /\ h = upper val.
  Definition org_says (i : item) (h name : cstr) : Prop :=
    exists b, i = Block b /\ of_type b (txt "organisation:") /\ last_line handle_line b h /\ last_line (attr (txt "org-name")) b name.
  Definition arin_says (i : item) (z : Z) (name : cstr) : Prop :=
    exists r a b x y, i = Csv r /\ ar_status r = Some (txt "Full Registry Services") /\ ar_name r = Some name /\
      ar_first r = Some a /\ py_int a = Some x /\ ar_last r = Some b /\ py_int b = Some y /\ (x <= z <= y)%Z /\ public_asn z.

  (** *** Networks *)
  Definition foreign (name : cstr) : Prop :=
    (exists p, In p [txt "ERX-NETBLOCK"; txt "AFRINIC-CIDR-BLOCK"; txt "ARIN-CIDR-BLOCK"; txt "LACNIC-CIDR-BLOCK"; txt "RIPE-CIDR-BLOCK";
                     txt "NON-RIPE-NCC-MANAGED-ADDRESS-BLOCK"] /\ begins p name) \/
    (exists c x, name = txt "IANA-NETBLOCK-" ++ c :: x /\ digit c = true) \/
    (exists s c x, name = txt "STUB-" ++ s ++ txt "SLASH" ++ c :: x /\ (3 <= length s)%nat /\ Forall (fun c => digit c = true \/ c = 45) s /\ digit c = true).
  (** a line because of which a block is left out, or the source cannot be imported *)
  Definition skips (line : cstr) : Prop :=
    (exists v, attr (txt "netname") line v /\ foreign v) \/ (exists v, attr (txt "inetnum") line v /\ inetnum py_addr space py_net v = Skipped).
  Definition fails (line : cstr) : Prop :=
    (exists v, attr (txt "inetnum") line v /\ inetnum py_addr space py_net v = Raised) \/ (exists v, attr (txt "inet6num") line v /\ py_net v = None).
  Definition six_line (line : cstr) (l : list pnet) : Prop := exists v n, attr (txt "inet6num") line v /\ py_net v = Some n /\ l = [n].
  Definition four_line (line : cstr) (l : list pnet) : Prop := exists v, attr (txt "inetnum") line v /\ inetnum py_addr space py_net v = Row l.
  Definition country_of (cc c : cstr) : Prop := cc <> txt "YU" /\ cc <> txt "ZZ" /\ In c countries /\ ((cc = txt "UK" /\ c = txt "GB") \/ (cc <> txt "UK" /\ c = cc)).
  Definition country_line (line c : cstr) : Prop := exists v, attr (txt "country") line v /\ country_of (upper v) c.
  Definition geofeed_line (line url : cstr) : Prop :=
    attr (txt "geofeed") line url \/
    exists v sp, attr (txt "remarks") line v /\ v = txt "Geofeed" ++ sp ++ url /\ sp <> [] /\ Forall (fun c => space c = true) sp /\ begins (txt "https://") url.
  Definition inet_type (b : list cstr) : Prop := of_type b (txt "inet6num:") \/ of_type b (txt "inetnum:").
  Definition nets_are (b : list cstr) (l : list pnet) : Prop := last_line six_line b l \/ (no_line six_line b /\ last_line four_line b l).
  Definition net_block (b : list cstr) (n : pnet) : Prop :=
    inet_type b /\ (forall l, In l b -> ~ skips l) /\ (exists l, nets_are b l /\ In n l) /\ acceptable is_global is_unspecified n.
  (** a network with all the countries named for it *)
  Definition net_says (i : item) (n : pnet) (all : list cstr) : Prop :=
    exists b, i = Block b /\ net_block b n /\ all_lines country_line b all.
  Definition https_url (text url : cstr) : Prop := urlparse text = Some (txt "https", url) /\ url <> [].
  Definition link_says (i : item) (n : pnet) (url : cstr) : Prop :=
    exists b text, i = Block b /\ net_block b n /\ last_line geofeed_line b text /\ text <> [] /\ https_url text url.
  (** delegations *)
  Definition delegated (i : item) (n : pnet) (cc : cstr) : Prop :=
    exists l text, i = Line l /\ decode_strict l = Some text /\
      parse_line py_int py_log2 py_addr is_global is_unspecified countries (rstrip space text) = Row (n, cc).

  (** *** What can be imported *)
  Definition nul_free (s : cstr) : Prop := ~ In 0 s.
  Definition block_readable (b : list cstr) : Prop :=
    (of_type b (txt "aut-num:") -> forall d h, last_line asn_line b d -> handle_is b d h ->
      (exists z, integer d z) /\ (last_line org_line b h -> nul_free h) /\
      (no_line org_line b -> forall descr, first_line (attr (txt "descr")) b descr -> nul_free descr)) /\
    (of_type b (txt "organisation:") -> exists h name, last_line handle_line b h /\ last_line (attr (txt "org-name")) b name /\ nul_free h /\ nul_free name) /\
    (inet_type b -> (forall x l y, b = x ++ l :: y -> fails l -> exists l', In l' x /\ skips l') /\
      forall n text url, net_block b n -> last_line geofeed_line b text -> text <> [] -> https_url text url -> nul_free url).
  Definition number_in (s : option cstr) (x : Z) : Prop := exists t, s = Some t /\ py_int t = Some x.
  Definition row_readable (r : arin) : Prop :=
    ar_status r <> Some (txt "Full Registry Services") \/ ar_first r = None \/
    exists x, number_in (ar_first r) x /\ (ar_last r = None \/ exists y, number_in (ar_last r) y /\
      forall z, (x <= z <= y)%Z -> public_asn z -> exists name, ar_name r = Some name /\ nul_free name).
  Definition readable (i : item) : Prop :=
    match i with
    | Block b => block_readable b
    | Line l => exists text, decode_strict l = Some text /\
        parse_line py_int py_log2 py_addr is_global is_unspecified countries (rstrip space text) <> Raised
    | Csv r => row_readable r
    end.
  Definition feed_items (fmt : format) (f : list (list N)) (l : list item) : Prop :=
    match fmt with
    | Standard => l = map Block (iterate_over_blocks space decode f)
    | Extended => l = map Line f
    | ArinNames => exists rows, py_csv f = Some rows /\ l = map Csv rows
    end.
  Inductive items_are : list (format * cstr) -> list item -> Prop :=
    | items_nil : items_are [] []
    | items_cons : forall fmt url feeds f l items, web url = Some f -> feed_items fmt f l -> items_are feeds items -> items_are ((fmt, url) :: feeds) (l ++ items).

  (** everything can be downloaded and imported *)
  Definition importable (feeds : list (format * cstr)) : Prop := exists items, items_are feeds items /\ forall i, In i items -> readable i.

  (** *** The tables *)
  (** no AS, network or link occurs twice *)
  Definition tables_ok (w : whois) : Prop :=
    NoDup (map fst (w_autnums w)) /\ NoDup (map fst (w_networks w)) /\ NoDup (map fst (w_links w)) /\ forall n v, In (n, v) (w_networks w) -> net_wf n.
  (** the same networks, ASes and no other links have the source *)
  Definition others_same (w w' : whois) (src : cstr) : Prop :=
    (forall n all, (exists cc, In (n, (cc, all, src)) (w_networks w')) <-> exists cc, In (n, (cc, all, src)) (w_networks w)) /\
    (forall z, (exists name, In (z, (name, src)) (w_autnums w')) <-> exists name, In (z, (name, src)) (w_autnums w)) /\
    (forall n url, In (n, url, src) (w_links w') -> In (n, url, src) (w_links w)).
  (** a network with its country *)
  Definition row_in (w : whois) (r : row) : Prop := exists all src, In (r_net r, (r_country r, all, src)) (w_networks w).
  Section Tables.
    Variable source : cstr.
    Variable w : whois.
    Variable items : list item.
    Definition org_name (h name : cstr) : Prop := last_says org_says items h name \/ (nobody org_says items h /\ first_says dummy_says items h name).
    (** what the objects of the source say *)
    Definition named (z : Z) (name : cstr) : Prop := exists h, last_says as_says items z h /\ org_name h name.
    (** rows of other sources, and those of ARIN's list *)
    Definition other_as (z : Z) (name src : cstr) : Prop := In (z, (name, src)) (w_autnums w) /\ src <> source.
    Definition before_as (z : Z) (name src : cstr) : Prop :=
      other_as z name src \/ ((forall name src, ~ other_as z name src) /\ first_says arin_says items z name /\ src = txt "ARIN").
    Definition after_as (z : Z) (name src : cstr) : Prop :=
      (named z name /\ ((exists old, before_as z old src) \/ ((forall old src, ~ before_as z old src) /\ src = source))) \/
      ((forall name, ~ named z name) /\ before_as z name src).
    Definition after_link (n : pnet) (url src : cstr) : Prop :=
      ((exists i, In i items /\ link_says i n url) /\ src = source) \/
      ((forall i, In i items -> ~ link_says i n url) /\ In (n, url, src) (w_links w) /\ src <> source).
    (** networks of the objects: the last object has the country, the first one the list *)
    Definition rir_net (n : pnet) (cc : option cstr) (all : list cstr) : Prop :=
      exists last, last_says net_says items n last /\ cc = hd_error last /\ first_says net_says items n all.
    (** networks of other sources and delegations *)
    Definition other_net (n : pnet) (cc : option cstr) (all : list cstr) (src : cstr) : Prop := In (n, (cc, all, src)) (w_networks w) /\ src <> source.
    Definition given_net (n : pnet) (cc : option cstr) (all : list cstr) (src : cstr) : Prop :=
      (nobody delegated items n /\ other_net n cc all src) \/
      (exists c, last_says delegated items n c /\ cc = Some c /\
        ((exists cc', other_net n cc' all src) \/ ((forall cc' all' src', ~ other_net n cc' all' src') /\ (exists c', first_says delegated items n c' /\ all = [c']) /\ src = source))).
    Definition given_row (r : row) : Prop := exists all src, given_net (r_net r) (r_country r) all src.
    Definition rir_row (r : row) : Prop := exists all, rir_net (r_net r) (r_country r) all.
    Definition known_row (r : row) : Prop := given_row r \/ (rir_row r /\ forall q, given_row q -> r_net q <> r_net r).
  End Tables.
End Whois.

(** Names of files *)
Definition ends_with (suffix s : cstr) : Prop := exists front, s = front ++ suffix.
