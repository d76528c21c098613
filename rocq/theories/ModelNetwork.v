(** Model of src/network.c except the functions that use network lists. *)
From Coq Require Import NArith ZArith List Bool Arith.
From Verif Require Import Base ModelAddress ModelCountryCode.
Import ListNotations.
Open Scope N_scope.

(** network.c:36-50 struct loc_network. The context, the reference count and the
    cached string are left out (the reference count has its own model,
    ModelRefcount). *)
Record network := mkNet {
  n_family : family;
  n_first : addr;
  n_last : addr;
  n_prefix : nat;       (* raw prefix: 96 is added for IPv4 *)
  n_cc : cc2;
  n_asn : N;
  n_flags : N
}.

(** network.c:52-90 loc_network_new; calloc is taken to succeed. *)
Definition network_new (a : addr) (prefix : N) : outcome network :=
  if negb (addr_valid_prefix a prefix) then Err 1
  else
    let p := if v4mapped a then (N.to_nat prefix + 96)%nat else N.to_nat prefix in
    let bitmask := prefix_to_bitmask p in
    let first := addr_and a bitmask in
    let last := addr_or first bitmask in
    Ok (mkNet (addr_family first) first last p (0, 0) 0 0).

(** network.c:156-166 loc_network_prefix, 32-bit unsigned subtraction *)
Definition network_prefix (n : network) : N :=
  match n_family n with
  | AF_INET6 => N.of_nat (n_prefix n)
  | AF_INET => (N.of_nat (n_prefix n) + (2 ^ 32 - 96)) mod 2 ^ 32
  end.

(** network.c:188-199 loc_network_matches_address *)
Definition network_matches_address (n : network) (a : addr) : bool :=
  if (0 <? addr_cmp (n_first n) a)%Z then false
  else if (addr_cmp (n_last n) a <? 0)%Z then false
  else true.

Definition with_cc (n : network) (c : cc2) : network :=
  mkNet (n_family n) (n_first n) (n_last n) (n_prefix n) c (n_asn n) (n_flags n).
Definition with_asn (n : network) (x : N) : network :=
  mkNet (n_family n) (n_first n) (n_last n) (n_prefix n) (n_cc n) x (n_flags n).
Definition with_flags (n : network) (x : N) : network :=
  mkNet (n_family n) (n_first n) (n_last n) (n_prefix n) (n_cc n) (n_asn n) x.

(** network.c:205-219 loc_network_set_country_code. Empty input clears only the
    first byte. *)
Definition set_country_code (n : network) (s : option cstr) : outcome network :=
  match s with
  | None | Some [] => Ok (with_cc n (0, snd (n_cc n)))
  | Some s =>
      if negb (cc_is_valid (Some s)) then Err (-EINVAL)
      else Ok (with_cc n (cc_copy s))
  end.

(** network.c:248-250 loc_network_has_flag; the int argument is converted to
    uint32_t. *)
Definition has_flag (n : network) (flag : N) : N := N.land (n_flags n) flag.

(** network.c:252-256 loc_network_set_flag *)
Definition set_flag (n : network) (flag : N) : network :=
  with_flags n (N.lor (n_flags n) flag).

(** network.c:242-246 loc_network_set_asn *)
Definition set_asn (n : network) (x : N) : network := with_asn n x.

(** network.c:201-203 loc_network_get_country_code *)
Definition get_country_code (n : network) : cstr := cc_str (n_cc n).

(** network.c:221-236 loc_network_matches_country_code; the result is a C truth
    value. *)
Definition matches_country_code (n : network) (s : option cstr) : outcome N :=
  let flag := special_code_to_flag s in
  if negb (flag =? 0)%Z then Ok (has_flag n (Z.to_N (flag mod 2 ^ 32)))
  else if negb (cc_is_valid s) then Err (-EINVAL)
  else
    match s with
    | None => UB (* not reached: NULL is handled above *)
    | Some s => Ok (if (fst (n_cc n) =? chr s 0) && (snd (n_cc n) =? chr s 1) then 1 else 0)
    end.

(** network.c:258-272 loc_network_cmp *)
Definition network_cmp (n1 n2 : network) : Z :=
  let r := addr_cmp (n_first n1) (n_first n2) in
  if negb (r =? 0)%Z then r
  else if (n_prefix n2 <? n_prefix n1)%nat then 1
  else if (n_prefix n1 <? n_prefix n2)%nat then -1
  else 0%Z.

(** network.c:274-295 loc_network_properties_cmp *)
Definition properties_cmp (n1 n2 : network) : Z :=
  let r := cc_cmp (n_cc n1) (n_cc n2) in
  if negb (r =? 0)%Z then r
  else if n_asn n2 <? n_asn n1 then 1
  else if n_asn n1 <? n_asn n2 then -1
  else if n_flags n2 <? n_flags n1 then 1
  else if n_flags n1 <? n_flags n2 then -1
  else 0%Z.

(** network.c:297-313 loc_network_overlaps *)
Definition overlaps (n1 n2 : network) : bool :=
  if network_matches_address n1 (n_first n2) then true
  else if network_matches_address n2 (n_first n1) then true
  else if network_matches_address n1 (n_last n2) then true
  else if network_matches_address n2 (n_last n1) then true
  else false.

(** network.c:315-331 loc_network_is_subnet (is [n2] inside [n1]?) *)
Definition is_subnet (n1 n2 : network) : bool :=
  if (n_prefix n2 <? n_prefix n1)%nat then false
  else if (0 <? addr_cmp (n_first n1) (n_first n2))%Z then false
  else if (addr_cmp (n_last n1) (n_last n2) <? 0)%Z then false
  else true.

(** The result of a call whose error is ignored: the object is unchanged. *)
Definition ignore_err {A} (old : A) (r : outcome A) : outcome A :=
  match r with Err _ => Ok old | r => r end.

(** network.c:363-379, the part of loc_network_subnets that copies the
    attributes to one subnet *)
Definition copy_attributes (from to : network) : outcome network :=
  do to <- ignore_err to (set_country_code to (Some (get_country_code from)));
  let to := if n_asn from =? 0 then to else set_asn to (n_asn from) in
  Ok (set_flag to (n_flags from)).

(** network.c:333-382 loc_network_subnets *)
Definition subnets (n : network) : outcome (network * network) :=
  let prefix := (network_prefix n + 1) mod 2 ^ 32 in
  if negb (addr_valid_prefix (n_first n) prefix) then Err 1
  else
    do s1 <- network_new (n_first n) prefix;
    let first_address := addr_increment (n_last s1) in
    do s2 <- network_new first_address prefix;
    do s1 <- copy_attributes n s1;
    do s2 <- copy_attributes n s2;
    Ok (s1, s2).

(** network.c:585-647 loc_network_merge. [None]: the networks cannot be merged
    ( *n = NULL, return 0). [ctz0] is the value of __builtin_ctz(0). *)
Definition network_merge (ctz0 : nat) (n1 n2 : network) : outcome (option network) :=
  if negb (family_eqb (n_family n1) (n_family n2)) then Ok None
  else if negb (n_prefix n1 =? n_prefix n2)%nat then Ok None
  else if (n_prefix n1 =? 0)%nat || (n_prefix n2 =? 0)%nat then Ok None
  else
    let prefix := network_prefix n1 in
    let bitlength := N.of_nat (addr_bit_length ctz0 (n_first n1)) in
    if prefix <=? bitlength then Ok None
    else
      let address := addr_increment (n_last n1) in
      if negb (addr_cmp address (n_first n2) =? 0)%Z then Ok None
      else if negb (properties_cmp n1 n2 =? 0)%Z then Ok None
      else
        do m <- network_new (n_first n1) ((prefix + (2 ^ 32 - 1)) mod 2 ^ 32);
        Ok (Some (with_flags (with_asn (with_cc m (n_cc n1)) (n_asn n1)) (n_flags n1))).
