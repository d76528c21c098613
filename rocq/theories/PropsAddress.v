(** C43: address arithmetic agrees with 128-bit integers. *)
From Coq Require Import NArith ZArith List Bool Arith.
From Verif Require Import Base ModelAddress SpecNetwork LemmasAddress LemmasSpecAddress.
Import ListNotations.
Open Scope N_scope.

Theorem C43_compare : forall a b, is_addr a -> is_addr b ->
  (num a = num b /\ addr_cmp a b = 0%Z) \/ (num a < num b /\ addr_cmp a b = (-1)%Z) \/
  (num b < num a /\ addr_cmp a b = 1%Z).
Proof. exact cmp_num. Qed.
Print Assumptions C43_compare.

Theorem C43_increment : forall a, is_addr a ->
  is_addr (addr_increment a) /\
  num (addr_increment a) =
    if (num a =? 0xffffffffffff) || (num a =? 2 ^ 128 - 1) then num a else num a + 1.
Proof. exact increment_num. Qed.
Print Assumptions C43_increment.

Example C43_increment_carry :
  is_addr (ip6 0x20010db80000000000000000ffffffff) /\
  addr_increment (ip6 0x20010db80000000000000000ffffffff) = ip6 0x20010db8000000000000000100000000 /\
  addr_increment (ip4 10 0 255 255) = ip4 10 1 0 0 /\
  addr_increment (ip4 255 255 255 255) = ip4 255 255 255 255.
Proof. split; [split; [reflexivity|repeat constructor]|now vm_compute]. Qed.

(** Full statement: for every address. It fails for exactly one address,
    ::ff00:0:0 (C43_decrement_refuted): while borrowing, the octets turn into
    those of an IPv4-mapped address and the loop stops early. *)
Theorem C43_decrement_partial : forall a, is_addr a -> num a <> 0xff0000000000 ->
  is_addr (addr_decrement a) /\
  num (addr_decrement a) =
    if (num a =? 0xffff00000000) || (num a =? 0) then num a else num a - 1.
Proof. exact decrement_num. Qed.
Print Assumptions C43_decrement_partial.

Example C43_decrement_borrow :
  addr_decrement (ip6 0x20010db8000000000000000100000000) = ip6 0x20010db80000000000000000ffffffff /\
  addr_decrement (ip4 10 1 0 0) = ip4 10 0 255 255.
Proof. now vm_compute. Qed.

Theorem C43_decrement_refuted : exists a, is_addr a /\
  num a <> 0 /\ num a <> 0xffff00000000 /\ num (addr_decrement a) <> num a - 1.
Proof.
  exists (ip6 0xff0000000000). split; [split; [reflexivity|repeat constructor]|].
  repeat split; vm_compute; discriminate.
Qed.
Print Assumptions C43_decrement_refuted.

Theorem C43_subtract : forall a b, is_addr a -> is_addr b -> (is_ipv4 (num a) <-> is_ipv4 (num b)) ->
  exists r, addr_sub a b = Ok r /\ is_addr r /\
    (is_ipv4 (num a) -> Z.of_N (num r) = (0xffff00000000 + (Z.of_N (num a) - Z.of_N (num b)) mod 2 ^ 32)%Z) /\
    (~ is_ipv4 (num a) -> Z.of_N (num r) = ((Z.of_N (num a) - Z.of_N (num b)) mod 2 ^ 128)%Z).
Proof. exact sub_num. Qed.
Print Assumptions C43_subtract.

Theorem C43_subtract_families : forall a b, is_addr a -> is_addr b ->
  ~ (is_ipv4 (num a) <-> is_ipv4 (num b)) -> addr_sub a b = Err 1.
Proof. exact sub_num_families. Qed.
Print Assumptions C43_subtract_families.

Example C43_subtract_borrow :
  addr_sub (ip4 10 1 0 0) (ip4 10 0 255 1) = Ok (ip4 0 0 0 255) /\
  addr_sub (ip6 0x20010db8000000000000000100000000) (ip6 0x20010db80000000000000000ffffffff) = Ok (ip6 1).
Proof. now vm_compute. Qed.

Theorem C43_common_bits : forall a b W, is_addr a -> is_addr b ->
  (is_ipv4 (num a) /\ is_ipv4 (num b) /\ W = 32%nat \/ ~ is_ipv4 (num a) /\ ~ is_ipv4 (num b) /\ W = 128%nat) ->
  exists c, addr_common_bits a b = Some c /\ (c <= W)%nat /\
    agree (128 - W + c) (num a) (num b) /\
    ((c < W)%nat -> ~ agree (128 - W + c + 1) (num a) (num b)).
Proof. exact common_bits_num. Qed.
Print Assumptions C43_common_bits.

Theorem C43_common_bits_families : forall a b, is_addr a -> is_addr b ->
  ~ (is_ipv4 (num a) <-> is_ipv4 (num b)) -> addr_common_bits a b = None.
Proof. exact common_bits_families. Qed.
Print Assumptions C43_common_bits_families.

Example C43_common_bits_case :
  addr_common_bits (ip4 10 0 0 0) (ip4 10 0 5 255) = Some 21%nat /\
  addr_common_bits (ip6 0x20010db8000000000000000100000000) (ip6 0x20010db80000000000000000ffffffff) = Some 95%nat.
Proof. now vm_compute. Qed.

Theorem C43_get_bit : forall a i, is_addr a -> (i < 128)%nat ->
  addr_get_bit a i = if N.testbit (num a) (N.of_nat (127 - i)) then 1 else 0.
Proof. exact get_bit_num. Qed.
Print Assumptions C43_get_bit.

Theorem C43_set_bit : forall a i (b : bool), is_addr a -> (i < 128)%nat ->
  is_addr (addr_set_bit a i (if b then 1 else 0)) /\
  forall k, N.testbit (num (addr_set_bit a i (if b then 1 else 0))) k =
    if k =? N.of_nat (127 - i) then b else N.testbit (num a) k.
Proof. exact set_bit_num. Qed.
Print Assumptions C43_set_bit.

Example C43_bits_case :
  addr_set_bit (ip4 10 0 0 0) 127 1 = ip4 10 0 0 1 /\ addr_set_bit (ip4 10 0 0 1) 127 0 = ip4 10 0 0 0 /\
  addr_get_bit (ip4 10 0 0 0) 100 = 1 /\ addr_get_bit (ip4 10 0 0 0) 101 = 0.
Proof. now vm_compute. Qed.

(** The number of significant bits: the address is a multiple of the power of two
    that remains, and of no greater one when __builtin_ctz(0) is at least 8 as on
    real hardware. The first two hold whatever __builtin_ctz(0) yields. *)
Theorem C43_bit_length : forall ctz0 a W, is_addr a ->
  (is_ipv4 (num a) /\ W = 32%nat \/ ~ is_ipv4 (num a) /\ W = 128%nat) ->
  (addr_bit_length ctz0 a <= W)%nat /\
  num a mod 2 ^ N.of_nat (W - addr_bit_length ctz0 a) = 0 /\
  ((8 <= ctz0)%nat -> (0 < addr_bit_length ctz0 a)%nat ->
   num a mod 2 ^ N.of_nat (W - addr_bit_length ctz0 a + 1) <> 0).
Proof. exact bit_length_num. Qed.
Print Assumptions C43_bit_length.

Example C43_bit_length_case :
  addr_bit_length 32 (ip4 10 0 64 0) = 18%nat /\ addr_bit_length 32 (ip6 (0x20010db8 * 2 ^ 96)) = 29%nat.
Proof. now vm_compute. Qed.
