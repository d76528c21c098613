(** Specification vocabulary for text: numbers in digits, dotted quads, DNS
    labels. Nothing here uses the functions of the model
    (addresses are lists of octets, read as numbers by SpecNetwork). *)
From Coq Require Import Ascii String.
From Coq Require Import NArith List Bool Arith.
From Verif Require Import ModelAddress SpecNetwork.
Import ListNotations.
Open Scope N_scope.

(** The number written by a list of digits, the first one being the most
    significant. *)
Definition number (base : N) (ds : list N) : N := fold_left (fun v d => v * base + d) ds 0.

(** [s] is the number [v] written in decimal digits; '0' is 48. *)
Definition decimal (s : list N) (v : N) : Prop :=
  exists ds, ds <> [] /\ Forall (fun d => d < 10) ds /\ s = map (fun d => 48 + d) ds /\ v = number 10 ds.

(** ... without leading zeros *)
Definition plain_decimal (s : list N) (v : N) : Prop :=
  decimal s v /\ (hd 0 s = 48 -> s = [48]).

(** [s] is the text a.b.c.d *)
Definition quad (s : list N) (a b c d : N) : Prop :=
  a < 256 /\ b < 256 /\ c < 256 /\ d < 256 /\
  exists sa sb sc sd, plain_decimal sa a /\ plain_decimal sb b /\ plain_decimal sc c /\ plain_decimal sd d /\
    s = sa ++ [46] ++ sb ++ [46] ++ sc ++ [46] ++ sd.

(** A DNS name: each label is followed by a dot. *)
Definition dotted (labels : list (list N)) : list N := concat (map (fun l => l ++ [46]) labels).

(** Nibble [i] of an IPv6 address, octet [i] of an IPv4 address *)
Definition nibble (i : nat) (v : N) : N := v / 16 ^ N.of_nat (31 - i) mod 16.
Definition octet4 (i : nat) (v : N) : N := v / 256 ^ N.of_nat (3 - i) mod 256.

(** Strings for the examples *)
Definition txt (s : string) : list N := map N_of_ascii (list_ascii_of_string s).

(** the label of a nibble: one of 0123456789abcdef *)
Definition nibble_label (l : list N) (x : N) : Prop :=
  l = [nth (N.to_nat x) (txt "0123456789abcdef") 0].

(** A text without '/' *)
Definition noslash (s : list N) : Prop := Forall (fun c => c <> 47) s.

(** Arguments of loc_address_str: an address or NULL; the calls with an address
    are the ones that return a string. *)
Definition addr_arg (a : option addr) : Prop := match a with Some a => is_addr a | None => True end.
Definition given (a : option addr) : bool := match a with Some _ => true | None => false end.
Definition formatted (l : list (option addr)) : nat := length (filter given l).
