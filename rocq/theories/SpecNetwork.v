(** Specification vocabulary for networks, in terms of 128-bit numbers and what
    the API reports (first address, last address, raw prefix, family,
    attributes). Nothing here uses the functions of the model. *)
From Coq Require Import NArith ZArith List Bool Arith.
From Verif Require Import Base ModelAddress ModelCountryCode ModelNetwork.
Import ListNotations.
Open Scope N_scope.

(** An address is 16 octets; its number is the big endian value. *)
Definition is_addr (a : addr) : Prop := length a = 16%nat /\ Forall (fun x => x < 256) a.
Definition num (a : addr) : N := be a.

(** IPv4-mapped numbers are those of ::ffff:0:0/96. *)
Definition is_ipv4 (v : N) : Prop := 0xffff00000000 <= v <= 0xffffffffffff.

(** [v] and [w] agree on their leading [p] of 128 bits. *)
Definition agree (p : nat) (v w : N) : Prop :=
  forall i, (i < p)%nat -> (p <= 128)%nat ->
  N.testbit v (N.of_nat (127 - i)) = N.testbit w (N.of_nat (127 - i)).

(** The set of addresses of a network: everything between first and last. *)
Definition member (n : network) (v : N) : Prop := num (n_first n) <= v <= num (n_last n).

(** The attributes a user sees. A country code with a NUL first byte is the empty
    string whatever the second byte is. *)
Definition attrs (n : network) : cstr * N * N := (get_country_code n, n_asn n, n_flags n).

(** A network as the library creates them: a pair of an address and a prefix
    valid for the family, with the block computed by its meaning. *)
Record valid_network (n : network) : Prop := {
  vn_first : is_addr (n_first n);
  vn_last : is_addr (n_last n);
  vn_prefix : (n_prefix n <= 128)%nat;
  vn_agree : forall v, v < 2 ^ 128 ->
     (member n v <-> agree (n_prefix n) (num (n_first n)) v);
  vn_family : n_family n = AF_INET <-> is_ipv4 (num (n_first n));
  vn_prefix4 : n_family n = AF_INET -> (96 <= n_prefix n)%nat;
  vn_cc : (fst (n_cc n) = 0 /\ snd (n_cc n) < 256) \/
          (65 <= fst (n_cc n) <= 90 /\ 65 <= snd (n_cc n) <= 90 /\ fst (n_cc n) <> 88);
  vn_asn : n_asn n < 2 ^ 32;
  vn_flags : n_flags n < 2 ^ 32
}.

(** n is split into s1 and s2 *)
Definition splits (n s1 s2 : network) : Prop :=
  valid_network s1 /\ valid_network s2 /\
  n_prefix s1 = S (n_prefix n) /\ n_prefix s2 = S (n_prefix n) /\
  (forall v, ~ (member s1 v /\ member s2 v)) /\
  (forall v, member n v <-> member s1 v \/ member s2 v) /\
  num (n_first s1) < num (n_first s2) /\
  n_family s1 = n_family n /\ n_family s2 = n_family n /\
  attrs s1 = attrs n /\ attrs s2 = attrs n.

(** the two networks are the two halves of a larger network of their family *)
Definition two_halves (n1 n2 : network) : Prop :=
  n_family n1 = n_family n2 /\ n_prefix n1 = n_prefix n2 /\
  exists m, valid_network m /\ n_family m = n_family n1 /\ S (n_prefix m) = n_prefix n1 /\
    num (n_first m) = num (n_first n1) /\ num (n_last m) = num (n_last n2) /\
    num (n_first n2) = num (n_last n1) + 1.

Definition same_attributes (n1 n2 : network) : Prop :=
  n_cc n1 = n_cc n2 /\ n_asn n1 = n_asn n2 /\ n_flags n1 = n_flags n2.

Definition union_of (m n1 n2 : network) : Prop :=
  valid_network m /\ S (n_prefix m) = n_prefix n1 /\ n_family m = n_family n1 /\
  same_attributes m n1 /\ (forall v, member m v <-> member n1 v \/ member n2 v).

(** Literal addresses for the examples: a.b.c.d as IPv4-mapped address. *)
Definition ip4 (a b c d : N) : addr := repeat 0 10 ++ [255; 255; a; b; c; d].
Definition ip6 (v : N) : addr := to_be 16 v.

(** In examples: the witness is the result of evaluating [t]. *)
Ltac give t :=
  let r := eval vm_compute in t in
  lazymatch r with
  | Ok (Some ?x) => exists x
  | Ok (?x, ?y) => exists x, y
  | Ok ?x => exists x
  end.
