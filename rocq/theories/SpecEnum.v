(** Specification of enumerators: sequences of calls and the filters. *)
From Coq Require Import NArith ZArith List Bool Arith Sorting.Sorted.
From Verif Require Import Base ModelAddress ModelCountryCode ModelNetwork ModelObjects ModelEnum SpecNetwork.
Import ListNotations.
Open Scope N_scope.

(** Calling [next] again and again: it returns the objects of [l] one after the
    other; the state is then [e']. *)
Inductive returns {A} (next : enum -> outcome (enum * option A * Z)) : enum -> list A -> enum -> Prop :=
| returns_nil e : returns next e [] e
| returns_cons e e1 x l e' : next e = Ok (e1, Some x, 0%Z) -> returns next e1 l e' -> returns next e (x :: l) e'.

(** ... and then NULL, which is the end. *)
Definition enumerates {A} (next : enum -> outcome (enum * option A * Z)) (e : enum) (l : list A) : Prop :=
  exists e1 e2, returns next e l e1 /\ next e1 = Ok (e2, None, 0%Z).

(** A new enumerator and the calls that configure it. *)
Inductive setting :=
| SetString (s : cstr)
| SetCountries (l : olist country)
| SetAsns (l : olist as_obj)
| SetFlag (flag : N)
| SetFamily (f : Z).
Definition set_one (e : enum) (s : setting) : enum :=
  match s with
  | SetString s => enum_set_string e s
  | SetCountries l => enum_set_countries e l
  | SetAsns l => enum_set_asns e l
  | SetFlag f => enum_set_flag e f
  | SetFamily f => enum_set_family e f
  end.
Definition configured (mode : enum_mode) (flatten : bool) (l : list setting) : enum :=
  fold_left set_one l (enum_new mode flatten).

(** The settings in effect: the last one counts, flags add up. *)
Definition the_countries (l : list setting) : option (list cstr) :=
  fold_left (fun r s => match s with SetCountries c => Some (map (fun x => cc_str (c_code x)) (ol_elems c)) | _ => r end) l None.
Definition the_asns (l : list setting) : option (list N) :=
  fold_left (fun r s => match s with SetAsns c => Some (map as_number (ol_elems c)) | _ => r end) l None.
Definition the_flags (l : list setting) : N :=
  fold_left (fun r s => match s with SetFlag f => N.lor r f | _ => r end) l 0.
Definition the_family (l : list setting) : Z :=
  fold_left (fun r s => match s with SetFamily f => f | _ => r end) l 0%Z.
Definition the_string (l : list setting) : option cstr :=
  fold_left (fun r s => match s with SetString t => Some t | _ => r end) l None.

(** What the filters let through: the family must be the one asked for, and if
    countries, ASes or flags were asked for, one of them must fit. *)
Definition wanted (l : list setting) (n : network) : Prop :=
  (the_family l = 0%Z \/ the_family l = match n_family n with AF_INET => 2%Z | AF_INET6 => 10%Z end) /\
  ((the_countries l = None /\ the_asns l = None /\ the_flags l = 0) \/
   (exists c, the_countries l = Some c /\ get_country_code n <> [] /\ In (get_country_code n) c) \/
   (exists a, the_asns l = Some a /\ In (n_asn n) a) \/
   N.land (n_flags n) (the_flags l) <> 0).

(** Codes and numbers in the lists are those of objects the library creates. *)
Definition setting_ok (s : setting) : Prop :=
  match s with
  | SetCountries l => Forall (fun c => 65 <= fst (c_code c) <= 90 /\ 65 <= snd (c_code c) <= 90 /\ fst (c_code c) <> 88) (ol_elems l)
  | _ => True
  end.

(** [s] occurs in [t], without regard to the case of the letters A to Z. *)
Definition same_letter (x y : N) : Prop :=
  x = y \/ (65 <= x <= 90 /\ y = x + 32) \/ (65 <= y <= 90 /\ x = y + 32).
Definition occurs (s t : cstr) : Prop :=
  exists before here after, t = before ++ here ++ after /\ Forall2 same_letter s here.

(** Where the path to [v] turns to the side of the zeros at bit [i] and there is a
    network of [Ns] on the other side. *)
Definition sibling (Ns : list network) (v : N) (i : nat) : bool :=
  N.even (v / 2 ^ N.of_nat (127 - i)) &&
  existsb (fun z => (i <? n_prefix z)%nat && (num (n_first z) / 2 ^ N.of_nat (127 - i) =? v / 2 ^ N.of_nat (127 - i) + 1)) Ns.
(** ... at 127 bits or all of them. *)
Definition crowded (Ns : list network) (v : N) : Prop := (126 < length (filter (sibling Ns v) (seq 0 128)))%nat.
(** An IPv6 network that contains all IPv4 addresses and starts with a one in the
    bits that say so. *)
Definition straddles (x : network) : Prop := (81 <= n_prefix x <= 95)%nat /\ member x (65535 * 2 ^ 32).

(** Networks that can be enumerated: none is as in C31_enumerate_refuted, and no single
    address as in C33_stack_refuted. *)
Definition enumerable (Ns : list network) : Prop :=
  (forall y, In y Ns -> ~ straddles y) /\
  (forall y, In y Ns -> n_prefix y = 128%nat -> ~ crowded Ns (num (n_first y))).

(** IPv4 networks, and IPv6 networks outside of ::/79 or around it; no IPv6 network
    contains an IPv4 network. *)
Definition regular (x : network) : Prop :=
  n_family x = AF_INET \/ 2 ^ 49 <= num (n_first x) \/ (n_prefix x <= 79)%nat.
Definition ordinary (Ns : list network) : Prop :=
  (forall y, In y Ns -> regular y) /\
  (forall y z, In y Ns -> In z Ns -> n_family y = AF_INET6 -> n_family z = AF_INET -> forall v, ~ (member y v /\ member z v)) /\
  (forall y, In y Ns -> n_prefix y = 128%nat -> ~ crowded Ns (num (n_first y))).

(** Every network of [l] ends before the next one starts. *)
Definition one_after_another (l : list network) : Prop := StronglySorted (fun x y => num (n_last x) < num (n_first y)) l.

(** The addresses of a family; ::/0 includes the IPv4 addresses. *)
Definition first_address (f : family) : N := match f with AF_INET => 65535 * 2 ^ 32 | AF_INET6 => 0 end.
Definition last_address (f : family) : N := match f with AF_INET => 65536 * 2 ^ 32 - 1 | AF_INET6 => 2 ^ 128 - 1 end.
(** [v] is in a network of [f] that has a country code and passes the filters. *)
Definition assigned (l : list setting) (Ns : list network) (f : family) (v : N) : Prop :=
  exists n, In n Ns /\ n_family n = f /\ wanted l n /\ get_country_code n <> [] /\ member n v.
(** From [a] to [b] nothing is assigned, and this cannot be extended. *)
Definition gap (l : list setting) (Ns : list network) (f : family) (a b : N) : Prop :=
  (first_address f <= a <= b /\ b <= last_address f) /\ (forall v, a <= v <= b -> ~ assigned l Ns f v) /\
  (a = first_address f \/ assigned l Ns f (a - 1)) /\ (b = last_address f \/ assigned l Ns f (b + 1)).
(** A network of a single address right behind another network, with none around both. *)
Definition attached (l : list setting) (Ns : list network) : Prop :=
  exists z, In z Ns /\ wanted l z /\ get_country_code z <> [] /\ num (n_first z) = num (n_last z) /\ 0 < num (n_first z) /\
  assigned l Ns (n_family z) (num (n_first z) - 1) /\
  ~ exists u, In u Ns /\ n_family u = n_family z /\ wanted l u /\ get_country_code u <> [] /\ member u (num (n_first z) - 1) /\ member u (num (n_first z)).
(** [L] is what bogon enumeration is to report: every address that is not assigned,
    for the families that have networks at all; every network of [L] has one; and
    nothing else if all gaps are networks. *)
Definition reports (l : list setting) (Ns L : list network) : Prop :=
  Forall valid_network L /\ (forall x, In x L -> get_country_code x = [] /\ n_asn x = 0 /\ n_flags x = 0) /\
  (forall f v u, assigned l Ns f u -> first_address f <= v <= last_address f -> ~ assigned l Ns f v -> exists x, In x L /\ n_family x = f /\ member x v) /\
  (forall x, In x L -> exists v u, member x v /\ ~ assigned l Ns (n_family x) v /\ assigned l Ns (n_family x) u) /\
  (forall f, (forall a b, gap l Ns f a b -> exists m, valid_network m /\ num (n_first m) = a /\ num (n_last m) = b) ->
   forall x v, In x L -> n_family x = f -> member x v -> ~ assigned l Ns f v).
