(** What is claimed about feeds *)
From Coq Require Import String.
From Coq Require Import NArith ZArith List Bool.
From Verif Require Import Base ModelCountryCode SpecText ModelImport SpecImport ModelCompile ModelGeofeed SpecGeofeed ModelOverrides SpecOverrides ModelFeeds.
Import ListNotations.
Open Scope N_scope.

(** the value of a key; there may be none *)
Definition has_member (l : list (cstr * json)) (key : cstr) (v : json) : Prop :=
  exists x y, l = x ++ (key, v) :: y /\ forall w, ~ In (key, w) x.
Definition no_member (l : list (cstr * json)) (key : cstr) : Prop := forall w, ~ In (key, w) l.
Definition get_member (l : list (cstr * json)) (key : cstr) (v : json) : Prop := has_member l key v \/ (no_member l key /\ v = JNull).
(** a value Python takes for false *)
Definition falsy (j : json) : Prop := j = JNull \/ j = JBool false \/ j = JInt 0 \/ j = JStr [] \/ j = JList [] \/ j = JObj [].

Section Feeds.
  Variable decode : list N -> option cstr.
  Variable space : N -> bool.
  Variable py_net : cstr -> option pnet.
  Variable py_net_int : Z -> option pnet.
  Variables is_global is_unspecified : pnet -> bool.
  Variable py_json : cstr -> option json.
  Variable py_json_file : list (list N) -> option json.
  Variable web : cstr -> option (list (list N)).

  (** a public network that is not too large *)
  Definition acceptable (n : pnet) : Prop :=
    is_global n = true /\ is_unspecified n = false /\ (p_bits n = 128 -> 10 <= p_len n) /\ (p_bits n = 32 -> 7 <= p_len n).

  (** *** AWS *)
  Definition part (l : list (cstr * json)) (key : cstr) (ps : list json) : Prop :=
    has_member l key (JList ps) \/ (no_member l key /\ ps = []).
  Definition aws_lists (feed : json) (prefixes : list json) : Prop :=
    exists l, feed = JObj l /\
      ((exists a b, part l (txt "ipv6_prefixes") a /\ part l (txt "prefixes") b /\ prefixes = a ++ b) \/
       (has_member l (txt "ipv6_prefixes") (JStr []) /\ has_member l (txt "prefixes") (JStr []) /\ prefixes = [])).
  Definition network_is (j : json) (n : pnet) : Prop :=
    (exists s, j = JStr s /\ py_net s = Some n) \/ (exists z, j = JInt z /\ py_net_int z = Some n) \/
    (j = JBool true /\ py_net_int 1 = Some n) \/ (j = JBool false /\ py_net_int 0 = Some n).
  (** the network of a prefix: the one for IPv6 if there is one *)
  Definition prefix_net (l : list (cstr * json)) (n : pnet) : Prop :=
    exists six four, get_member l (txt "ipv6_prefix") six /\ get_member l (txt "ip_prefix") four /\
      ((~ falsy six /\ network_is six n) \/ (falsy six /\ network_is four n)).
  (** what a region says: the country, and whether it is everywhere *)
  Inductive region_is (region : cstr) : option cstr -> bool -> Prop :=
    | region_listed : forall cc, In (region, cc) aws_region_country_map -> region_is region (Some cc) false
    | region_global : region = txt "GLOBAL" -> region_is region None true
    | region_us : forall s, region = txt "us-" ++ s -> region_is region (Some (txt "US")) false
    | region_cn : forall s, region = txt "cn-" ++ s -> region_is region (Some (txt "CN")) false.
  Definition aws_entry (p : json) (n : pnet) (a : attrs) : Prop :=
    exists l region country anycast, p = JObj l /\ prefix_net l n /\ acceptable n /\ has_member l (txt "region") (JStr region) /\
      region_is region country anycast /\ a = mkAttrs country None None (Some anycast) None.
  Definition aws_readable (p : json) : Prop :=
    exists l n, p = JObj l /\ prefix_net l n /\ (acceptable n -> exists region, has_member l (txt "region") (JStr region)).

  (** *** DROP *)
  (** the text in front of a comment *)
  Definition drop_text (line : list N) (s : cstr) : Prop :=
    exists text comment body, decode line = Some text /\ text = body ++ comment /\ (comment = [] \/ exists c, comment = SEMICOLON :: c) /\
      plain SEMICOLON body /\ body <> [] /\ trimmed space body s.
  Definition drop_net (line : list N) (n : pnet) : Prop := exists s, drop_text line s /\ py_net s = Some n /\ acceptable n.
  (** no two lines for one key *)
  Definition never_twice {K} (P : list N -> K -> Prop) (lines : list (list N)) : Prop :=
    forall x l y l' z k, lines = x ++ l :: y ++ l' :: z -> P l k -> ~ P l' k.
  Definition drop_readable (lines : list (list N)) : Prop :=
    (forall l, In l lines -> decode l <> None) /\ (exists l s, In l lines /\ drop_text l s) /\ never_twice drop_net lines.

  (** *** ASNDROP *)
  Definition object_of (line : list N) (m : list (cstr * json)) : Prop :=
    exists text, decode line = Some text /\ py_json text = Some (JObj m).
  Definition about_list (m : list (cstr * json)) : Prop := has_member m (txt "type") (JStr (txt "metadata")).
  Definition public_asn (z : Z) : Prop := (1 <= z <= 23455 \/ 23457 <= z <= 64495 \/ 131072 <= z <= 4199999999)%Z.
  Definition asn_is (line : list N) (z : Z) : Prop :=
    exists m, object_of line m /\ ~ about_list m /\ has_member m (txt "asn") (JInt z) /\ public_asn z.
  Definition asn_readable (line : list N) : Prop :=
    exists text, decode line = Some text /\ forall j, py_json text = Some j -> exists m, j = JObj m /\
      (about_list m \/ exists v, get_member m (txt "asn") v /\ (falsy v \/ exists z, v = JInt z)).

  (** what a feed says *)
  Inductive imports : cstr -> list (list N) -> list (pnet * attrs) -> list (Z * attrs) -> Prop :=
    | imports_aws : forall f feed prefixes rows, py_json_file f = Some feed -> aws_lists feed prefixes ->
        (forall p, In p prefixes -> aws_readable p) -> NoDup (map fst rows) ->
        (forall n a, In (n, a) rows <-> first_says aws_entry prefixes n a) -> imports (txt "AWS-IP-RANGES") f rows []
    | imports_drop : forall name f rows, name = txt "SPAMHAUS-DROP" \/ name = txt "SPAMHAUS-DROPV6" -> drop_readable f -> NoDup (map fst rows) ->
        (forall n a, In (n, a) rows <-> (exists l, In l f /\ drop_net l n) /\ a = mkAttrs None None None None (Some true)) -> imports name f rows []
    | imports_asndrop : forall f rows, (forall l, In l f -> asn_readable l) -> never_twice asn_is f -> NoDup (map fst rows) ->
        (forall z a, In (z, a) rows <-> (exists l, In l f /\ asn_is l z) /\ a = mkAttrs None None None None (Some true)) -> imports (txt "SPAMHAUS-ASNDROP") f [] rows.

  Definition sources : list (cstr * cstr) :=
    [(txt "AWS-IP-RANGES", txt "https://ip-ranges.amazonaws.com/ip-ranges.json");
     (txt "SPAMHAUS-DROP", txt "https://www.spamhaus.org/drop/drop.txt"); (txt "SPAMHAUS-DROPV6", txt "https://www.spamhaus.org/drop/dropv6.txt");
     (txt "SPAMHAUS-ASNDROP", txt "https://www.spamhaus.org/drop/asndrop.json")].
  Definition asked (wanted : list cstr) (name : cstr) : Prop := wanted = [] \/ In name wanted.
  Definition gets (name url : cstr) (nets : list (pnet * attrs)) (ases : list (Z * attrs)) : Prop :=
    exists f, web url = Some f /\ imports name f nets ases.
  Definition rows_are (st : feeds) (name : cstr) (nets : list (pnet * attrs)) (ases : list (Z * attrs)) : Prop :=
    (forall n a, In (n, name, a) (fd_networks st) <-> In (n, a) nets) /\ (forall z a, In (z, name, a) (fd_autnums st) <-> In (z, a) ases).
  Definition same_rows (st st' : feeds) (name : cstr) : Prop :=
    (forall n a, In (n, name, a) (fd_networks st') <-> In (n, name, a) (fd_networks st)) /\
    (forall z a, In (z, name, a) (fd_autnums st') <-> In (z, name, a) (fd_autnums st)).
End Feeds.
(** Regions with a country in the table that is not the one AWS documents *)
Definition odd_regions : list cstr := [txt "ap-southeast-3"; txt "ap-southeast-6"; txt "ap-southeast-7"].
