(** What is claimed about geofeeds *)
From Coq Require Import String.
From Coq Require Import NArith ZArith List Bool.
From Verif Require Import Base ModelCountryCode SpecText ModelImport SpecImport ModelGeofeed.
Import ListNotations.
Open Scope N_scope.

(** two letters, the first of which is not X *)
Definition country_code (s : cstr) : Prop := exists a b, s = [a; b] /\ 65 <= a <= 90 /\ 65 <= b <= 90 /\ a <> 88.
Definition spaces (space : N -> bool) (s : cstr) : Prop := Forall (fun c => space c = true) s.
(** [t] is [s] without white space at the end; at both ends *)
Definition end_trimmed (space : N -> bool) (s t : cstr) : Prop :=
  exists b, s = t ++ b /\ spaces space b /\ forall x c, t = x ++ [c] -> space c = false.
Definition trimmed (space : N -> bool) (s t : cstr) : Prop :=
  exists a b, s = a ++ t ++ b /\ spaces space a /\ spaces space b /\
    (forall c x, t = c :: x -> space c = false) /\ (forall x c, t = x ++ [c] -> space c = false).

Section Lines.
  Variable decode : list N -> option cstr.
  Variable space : N -> bool.
  Variable upper : cstr -> cstr.
  Variable py_net : cstr -> option pnet.
  (** the fields of a line: network, country, region, city and any others *)
  Definition fields (line : list N) (network country region city : cstr) : Prop :=
    exists text body rest, decode line = Some text /\ end_trimmed space text body /\
      (rest = [] \/ exists r, rest = COMMA :: r) /\
      body = network ++ COMMA :: country ++ COMMA :: region ++ COMMA :: city ++ rest /\
      plain COMMA network /\ plain COMMA country /\ plain COMMA region /\ plain COMMA city /\ starts_with HASH body = false.
  Definition entry (line : list N) (p : place) : Prop :=
    exists network country code, fields line network country (pl_region p) (pl_city p) /\
      py_net network = Some (pl_net p) /\ trimmed space country code /\ upper code = pl_country p /\
      country_code (pl_country p) /\ ~ In 0 (pl_region p) /\ ~ In 0 (pl_city p).
  (** the entries of a file, in their order *)
  Inductive entries : list (list N) -> list place -> Prop :=
    | entries_nil : entries [] []
    | entries_entry : forall l lines p ps, entry l p -> entries lines ps -> entries (l :: lines) (p :: ps)
    | entries_other : forall l lines ps, (forall p, ~ entry l p) -> entries lines ps -> entries (l :: lines) ps.
  Definition no_nul (line : list N) : Prop := forall text, decode line = Some text -> ~ In 0 text.
End Lines.

(** ** Feeds *)
Definition places_of (st : geo) (id : N) : list place := map snd (filter (fun r => fst r =? id) (ge_places st)).
Definition geo_wf (st : geo) : Prop :=
  NoDup (map g_id (ge_feeds st)) /\ NoDup (map g_url (ge_feeds st)) /\
  (forall g, In g (ge_feeds st) -> g_id g < ge_serial st) /\
  (forall r, In r (ge_places st) -> exists g, In g (ge_feeds st) /\ g_id g = fst r).
(** what was known of a feed: nothing if it is new *)
Definition before (st : geo) (url : cstr) (id : N) (status updated : option Z) (places : list place) : Prop :=
  (In (mkG id url status updated) (ge_feeds st) /\ places = places_of st id) \/
  ((forall g, In g (ge_feeds st) -> g_url g <> url /\ g_id g <> id) /\ status = None /\ updated = None /\ places = []).
Definition age_under (now t : Z) (updated : option Z) : Prop := match updated with Some u => (now - u < t)%Z | None => False end.
(** what becomes of a feed *)
Inductive result decode space upper py_net (now : Z) : fetched -> option Z -> option Z -> list place -> option Z -> option Z -> list place -> Prop :=
  | result_fresh : forall f s u ps, age_under now (7 * 86400 * 1000000) u -> result decode space upper py_net now f s u ps s u ps
  | result_new : forall lines s u ps qs, ~ age_under now (7 * 86400 * 1000000) u -> entries decode space upper py_net lines qs ->
      result decode space upper py_net now (Answer lines) s u ps None (Some now) qs
  | result_gone : forall s u ps, ~ age_under now (7 * 86400 * 1000000) u -> result decode space upper py_net now (Http 404) s u ps (Some 404%Z) u []
  | result_kept : forall f s u ps c, ~ age_under now (7 * 86400 * 1000000) u -> (f = Http c /\ c <> 404%Z) \/ (f = Unreachable /\ c = 599%Z) ->
      age_under now (14 * 86400 * 1000000) u -> result decode space upper py_net now f s u ps (Some c) u ps
  | result_expired : forall f s u ps c, (f = Http c /\ c <> 404%Z) \/ (f = Unreachable /\ c = 599%Z) ->
      ~ age_under now (14 * 86400 * 1000000) u -> result decode space upper py_net now f s u ps (Some c) u [].
