(** What an export is asked for and what it should write. *)
From Coq Require Import NArith ZArith List Bool Arith.
From Verif Require Import Base ModelAddress ModelCountryCode ModelNetwork ModelDatabase ModelEnum ModelText ModelExport SpecEnum.
Import ListNotations.
Open Scope N_scope.

(** The special codes A1, A2, A3 and XD and the flags they stand for. *)
Inductive special : cstr -> N -> Prop :=
| anonymous_proxy : special [65; 49] 1
| satellite_provider : special [65; 50] 2
| anycast : special [65; 51] 4
| drop : special [88; 68] 8.

(** The network belongs to the output. The number 0 means no AS. *)
Definition belongs (k : wkey) (n : network) : Prop :=
  match k with
  | Code c => get_country_code n = c \/ exists flag, special c flag /\ N.land (n_flags n) flag <> 0
  | Asn a => n_asn n = a /\ a <> 0
  end.

Definition requested (countries : list cstr) (asns : list N) (k : wkey) : Prop :=
  match k with Code c => In c countries | Asn a => In a asns end.
Definition ordinary_key (k : wkey) : Prop :=
  match k with Code c => forall flag, ~ special c flag | Asn _ => True end.
(** A country or the AS of the network was asked for. *)
Definition selected (countries : list cstr) (asns : list N) (n : network) : Prop :=
  exists k, requested countries asns k /\ ordinary_key k /\ belongs k n.

(** [l] is what is left of [all] without those that are not [P]. *)
Inductive those {A} (P : A -> Prop) : list A -> list A -> Prop :=
| t_nil : those P [] []
| t_keep x all l : P x -> those P all l -> those P (x :: all) (x :: l)
| t_skip x all l : ~ P x -> those P all l -> those P (x :: all) l.

(** The request a user can make (location.in:585-592): valid codes, the special codes and
    numbers. *)
Definition request_ok (countries : list cstr) (asns : list N) : Prop :=
  Forall (fun c => cc_is_valid (Some c) = true \/ exists flag, special c flag) countries /\
  Forall (fun a => 0 < a < 2 ^ 32) asns.

(** export.py:241-300 for one family: the search, then all networks one after
    the other. *)
Definition exports (next : enum -> outcome (enum * option network * Z)) (f : family)
    (countries : list cstr) (asns : list N) (ws : writers) : Prop :=
  exists e L, search_networks (country_codes countries) asns (match f with AF_INET => 2 | AF_INET6 => 10 end)%Z = Ok e /\
    enumerates next e L /\ ws = export_networks countries asns L.

(** ** Text *)
(** The library reads the text as the addresses of the network. *)
Definition reads (s : cstr) (n : network) : Prop :=
  exists m, network_new_from_string (Some s) = Ok m /\
    n_first m = n_first n /\ n_last m = n_last n /\ n_prefix m = n_prefix n /\ n_family m = n_family n.
(** Neither blank, line feed, comma nor brace. *)
Definition word (s : cstr) : Prop := s <> [] /\ Forall (fun c => 46 <= c <= 102) s.
