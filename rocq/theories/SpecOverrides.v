(** What is claimed about overrides and about the list of countries *)
From Coq Require Import String.
From Coq Require Import NArith ZArith List Bool.
From Verif Require Import Base ModelCountryCode SpecText ModelImport SpecImport ModelCompile ModelGeofeed SpecGeofeed ModelOverrides.
Import ListNotations.
Open Scope N_scope.

Section Blocks.
  Variable space : N -> bool.
  Variable lower : cstr -> cstr.
  Variables py_net py_net_strict : cstr -> option pnet.
  Variable bigint : cstr -> option Z.
  Variable urlparse : cstr -> option (cstr * cstr).

  (** a line "key: value" *)
  Definition pair (line key value : cstr) : Prop :=
    exists rest, line = key ++ COLON :: rest /\ plain COLON key /\ trimmed space rest value.
  (** the last line with the key decides *)
  Definition says (block : list cstr) (key value : cstr) : Prop :=
    exists x line y, block = x ++ line :: y /\ pair line key value /\ forall l v, In l y -> ~ pair l key v.
  Definition value (block : list cstr) (key : cstr) (o : option cstr) : Prop :=
    match o with
    | Some v => says block key v
    | None => forall l v, In l block -> ~ pair l key v
    end.
  Definition yes_no (o : option cstr) (b : option bool) : Prop :=
    match b with
    | Some true => exists v, o = Some v /\ (lower v = txt "yes" \/ lower v = txt "1")
    | Some false => exists v, o = Some v /\ (lower v = txt "no" \/ lower v = txt "0")
    | None => forall v, o = Some v -> lower v <> txt "yes" /\ lower v <> txt "1" /\ lower v <> txt "no" /\ lower v <> txt "0"
    end.
  Definition flag (block : list cstr) (key : cstr) (b : option bool) : Prop := exists o, value block key o /\ yes_no o b.
  Definition about (block : list cstr) (a : attrs) : Prop :=
    value block (txt "country") (a_country a) /\ flag block (txt "is-anonymous-proxy") (a_proxy a) /\
    flag block (txt "is-satellite-provider") (a_satellite a) /\ flag block (txt "is-anycast") (a_anycast a) /\ flag block (txt "drop") (a_drop a).
  (** the first line has the type *)
  Definition typed (block : list cstr) (type : cstr) : Prop := exists line block' v, block = line :: block' /\ pair line type v.

  (** what blocks ask for *)
  Definition wants_net (block : list cstr) (n : pnet) (a : attrs) : Prop :=
    typed block (txt "net") /\ exists s, says block (txt "net") s /\ py_net s = Some n /\ p_len n <> 0 /\ about block a.
  Definition wants_as (block : list cstr) (z : Z) (name : option cstr) (a : attrs) : Prop :=
    typed block (txt "aut-num") /\ exists s, says block (txt "aut-num") (txt "AS" ++ s) /\ bigint s = Some z /\
      value block (txt "name") name /\ about block a.
  Definition lists (block : list cstr) (n : pnet) : Prop :=
    exists l s, In l block /\ pair l (txt "network") s /\ py_net_strict s = Some n.
  Definition wants_feed (block : list cstr) (url : cstr) (n : pnet) : Prop :=
    typed block (txt "geofeed") /\ url <> [] /\ (exists s, says block (txt "geofeed") s /\ urlparse s = Some (txt "https", url)) /\
    (lists block n \/ ((forall m, ~ lists block m) /\ (n = mkP 128 0 0 \/ n = mkP 32 0 0))).
  (** blocks the command cannot handle *)
  Definition with_nul (block : list cstr) (key : cstr) : Prop := exists s, says block key s /\ In 0 s.
  Definition stops (block : list cstr) : Prop :=
    (exists l, In l block /\ plain COLON l) \/
    (typed block (txt "net") /\ with_nul block (txt "country") /\
      exists s n, says block (txt "net") s /\ py_net s = Some n /\ p_len n <> 0) \/
    (typed block (txt "aut-num") /\ exists s, says block (txt "aut-num") (txt "AS" ++ s) /\
      (bigint s = None \/ with_nul block (txt "name") \/ with_nul block (txt "country"))) \/
    (typed block (txt "geofeed") /\ exists s url, says block (txt "geofeed") s /\ urlparse s = Some (txt "https", url) /\ In 0 url).
End Blocks.

(** the first of the blocks that satisfy [P] for a key *)
Definition first_says {B K A} (P : B -> K -> A -> Prop) (l : list B) (k : K) (a : A) : Prop :=
  exists x b y, l = x ++ b :: y /\ P b k a /\ forall b' a', In b' x -> ~ P b' k a'.

(** a row for each URL; those from before stay *)
Definition known_feeds (g g' : geo) (new : cstr -> Prop) : Prop :=
  (forall url, (exists f, In f (ge_feeds g') /\ g_url f = url) <-> (exists f, In f (ge_feeds g) /\ g_url f = url) \/ new url) /\
  (forall f, In f (ge_feeds g) -> In f (ge_feeds g')) /\ ge_places g' = ge_places g /\
  (forall f, In f (ge_feeds g') -> ~ In f (ge_feeds g) -> g_status f = None /\ g_updated f = None).
(** the networks a feed may be used for *)
Definition permits (old : list (pnet * cstr * cstr)) (new : cstr -> pnet -> Prop) (n : pnet) (url source : cstr) : Prop :=
  (new url n /\ source = txt "overrides") \/ (In (n, url, source) old /\ source <> txt "overrides" /\ ~ new url n).

(** ** Countries *)
Section Countries.
  Variable space : N -> bool.
  Definition word_of (s : cstr) : Prop := s <> [] /\ Forall (fun c => space c = false) s.
  (** two words and a name, which may have white space inside *)
  Definition country_entry (line code continent name : cstr) : Prop :=
    exists a b c d, line = a ++ code ++ b ++ continent ++ c ++ name ++ d /\
      spaces space a /\ spaces space b /\ b <> [] /\ spaces space c /\ c <> [] /\ spaces space d /\
      word_of code /\ word_of continent /\ name <> [] /\
      (forall x e, name = x :: e -> space x = false) /\ (forall e x, name = e ++ [x] -> space x = false) /\
      starts_with HASH (a ++ code) = false.
End Countries.
