(** What a compiled database is to say about an address, given the tables of the importer *)
From Coq Require Import NArith ZArith List Bool.
From Verif Require Import Base ModelCountryCode SpecStringPool SpecNetwork ModelImport SpecImport ModelCompile.
Import ListNotations.
Open Scope N_scope.

(** ** One source *)
Section Source.
  Context {A : Type}.
  Variable net : A -> pnet.
  Variable T : A -> Prop.
  Definition covers (bits v : N) (r : A) : Prop := T r /\ p_bits (net r) = bits /\ holds (net r) v.
  (** a row with the smallest network around an address *)
  Definition nearest (bits v : N) (r : A) : Prop :=
    covers bits v r /\ forall q, covers bits v q -> p_len (net q) <= p_len (net r).
  (** what the source has on an address: one of the nearest rows, nothing if there are none *)
  Definition consult (bits v : N) (x : option A) : Prop :=
    match x with
    | Some r => nearest bits v r
    | None => forall r, ~ covers bits v r
    end.
End Source.
(** what a source by AS number has *)
Definition consult_as {A} (T : list (N * A)) (n : option N) (x : option A) : Prop :=
  match n, x with
  | None, x => x = None
  | Some n, Some a => In (n, a) T
  | Some n, None => forall a, ~ In (n, a) T
  end.

(** the rows of the geofeeds that are allowed: the geofeed is given for a network around *)
Definition approved (t : tables) (r : row) : Prop :=
  exists id url n, In (id, url) (t_geofeeds t) /\ In (n, url) (t_network_geofeeds t) /\ In (id, r) (t_geofeed_networks t) /\
    p_bits n = p_bits (r_net r) /\ forall v, holds (r_net r) v -> holds n v.

(** ** All sources *)
Fixpoint first_said {A} (l : list (option A)) : option A :=
  match l with
  | [] => None
  | Some x :: _ => Some x
  | None :: l' => first_said l'
  end.
Definition said {A B} (f : A -> option B) (x : option A) : option B := match x with Some a => f a | None => None end.
Definition expected (t : tables) (bits v : N) (asn : option N) (a : attrs) : Prop :=
  exists an net geo feed asfeed over asover,
    consult fst (fun r => In r (t_announcements t)) bits v an /\
    consult r_net (fun r => In r (t_networks t)) bits v net /\
    consult r_net (approved t) bits v geo /\
    consult fst (fun r => In r (t_network_feeds t)) bits v feed /\
    consult_as (t_autnum_feeds t) asn asfeed /\
    consult fst (fun r => In r (t_network_overrides t)) bits v over /\
    consult_as (t_autnum_overrides t) asn asover /\
    asn = option_map snd an /\
    (let layers {B} (f : attrs -> option B) : list (option B) :=
       [said (fun r => f (snd r)) asover; said (fun r => f (snd r)) over; said f asfeed; said (fun r => f (snd r)) feed] in
     a_country a = first_said (layers a_country ++ [match geo with Some g => r_country g | None => said r_country net end]) /\
     a_proxy a = first_said (layers a_proxy) /\ a_satellite a = first_said (layers a_satellite) /\
     a_anycast a = first_said (layers a_anycast) /\ a_drop a = first_said (layers a_drop)).

(** the networks anything is known about *)
Definition known (t : tables) (n : pnet) : Prop :=
  (exists a, In (n, a) (t_announcements t)) \/ (exists c, In (mkRow n c) (t_networks t)) \/
  (exists a, In (n, a) (t_network_feeds t)) \/ (exists a, In (n, a) (t_network_overrides t)) \/
  (exists id c, In (id, mkRow n c) (t_geofeed_networks t)).
(** the networks of all tables are networks *)
Definition tables_wf (t : tables) : Prop :=
  (forall n, known t n -> net_wf n) /\ (forall n url, In (n, url) (t_network_geofeeds t) -> net_wf n).

(** ** In the database *)
(** addresses as the library numbers them *)
Definition mapped (bits v : N) : N := if bits =? 32 then 65535 * 2 ^ 32 + v else v.
(** IPv4 networks, and IPv6 networks that have no address of IPv4 (::ffff:0:0/96) and
    are not a single address with less than two bits that are set *)
Definition usual (n : pnet) : Prop :=
  p_bits n = 32 \/
  (p_base n + size_of n <= 65535 * 2 ^ 32 \/ 65536 * 2 ^ 32 <= p_base n) /\
  (size_of n = 1 -> p_base n <> 0 /\ forall k, p_base n <> 2 ^ k).
Definition code_of (c : option cstr) : cstr := match c with Some s => s | None => [] end.
Definition number_of (n : option N) : N := match n with Some n => n | None => 0 end.
Definition flag_of (b : option bool) (n : N) : N := match b with Some true => n | _ => 0 end.
Definition flags_of (a : attrs) : N :=
  flag_of (a_proxy a) 1 + flag_of (a_satellite a) 2 + flag_of (a_anycast a) 4 + flag_of (a_drop a) 8.

(** the name of an AS: the one of the overrides if there is one *)
Definition as_named (t : tables) (n : N) (s : cstr) : Prop :=
  s <> [] /\ exists name, In (n, name) (t_autnums t) /\
    ((exists a, In (n, (Some s, a)) (t_autnum_overrides t)) \/
     (s = name /\ forall x a, ~ In (n, (Some x, a)) (t_autnum_overrides t))).
(** texts have no NUL, and the keys of the tables are unique *)
Definition texts_ok (t : tables) : Prop :=
  (forall n s, In (n, s) (t_autnums t) -> is_cstr s) /\
  (forall n s a, In (n, (Some s, a)) (t_autnum_overrides t) -> is_cstr s) /\
  (forall c k s, In (c, (k, s)) (t_countries t) -> is_cstr k /\ is_cstr s).
Definition keys_ok (t : tables) : Prop :=
  NoDup (map fst (t_autnums t)) /\ NoDup (map fst (t_autnum_overrides t)) /\ NoDup (map fst (t_countries t)).
(** addresses of a family; those of ::ffff:0:0/96 are IPv4 addresses to the library *)
Definition fits (bits v : N) : Prop := (bits = 32 /\ v < 2 ^ 32) \/ (bits = 128 /\ v < 2 ^ 128 /\ ~ is_ipv4 v).
