(** Model of src/libloc/address.h. An address is a list of 16 octets
    (struct in6_addr, field s6_addr). *)
From Coq Require Import NArith ZArith List Bool Arith.
From Verif Require Import Base.
Import ListNotations.
Open Scope N_scope.

Definition addr := list N.

(** s6_addr[i] *)
Definition oct (a : addr) (i : nat) : N := nth i a 0.

(** Address families; AF_UNSPEC is not stored in any object of the model. *)
Inductive family := AF_INET | AF_INET6.

Definition family_eqb (f g : family) : bool :=
  match f, g with
  | AF_INET, AF_INET => true
  | AF_INET6, AF_INET6 => true
  | _, _ => false
  end.

(** IN6_IS_ADDR_V4MAPPED of <netinet/in.h>: octets 0-9 are zero, 10 and 11 are
    0xff. *)
Definition v4mapped (a : addr) : bool :=
  forallb (fun i => oct a i =? 0) (seq 0 10) && (oct a 10 =? 255) && (oct a 11 =? 255).

(** address.h:34-39 loc_address_family *)
Definition addr_family (a : addr) : family :=
  if v4mapped a then AF_INET else AF_INET6.

(** address.h:41-52 loc_address_family_bit_length *)
Definition family_bit_length (f : family) : N :=
  match f with AF_INET6 => 128 | AF_INET => 32 end.

(** address.h:57-67 loc_address_valid_prefix *)
Definition addr_valid_prefix (a : addr) (prefix : N) : bool :=
  prefix <=? family_bit_length (addr_family a).

(** address.h:69-79 loc_address_cmp: the loop over i = 0..15. *)
Fixpoint addr_cmp_loop (a1 a2 : addr) (i : nat) (fuel : nat) : Z :=
  match fuel with
  | O => 0
  | S fuel' =>
      if oct a2 i <? oct a1 i then 1
      else if oct a1 i <? oct a2 i then -1
      else addr_cmp_loop a1 a2 (S i) fuel'
  end.
Definition addr_cmp (a1 a2 : addr) : Z := addr_cmp_loop a1 a2 0 16.

(** address.h:81-85: the first octet of the foreach_octet loops. *)
Definition low_octet (a : addr) : nat := if v4mapped a then 12%nat else 0%nat.

(** address.h:87-96 loc_address_all_zeroes (the address is not modified, so the
    loop bound of the macro is constant). *)
Definition addr_all_zeroes (a : addr) : bool :=
  forallb (fun i => oct a i =? 0) (seq (low_octet a) (16 - low_octet a)).

(** address.h:98-107 loc_address_all_ones *)
Definition addr_all_ones (a : addr) : bool :=
  forallb (fun i => negb (oct a i <? 255)) (seq (low_octet a) (16 - low_octet a)).

(** address.h:109-111 loc_address_get_bit, for i / 8 < 16. Callers whose index
    can be larger check this separately and yield [UB]. *)
Definition addr_get_bit (a : addr) (i : nat) : N :=
  N.land (N.shiftr (oct a (i / 8)) (N.of_nat (7 - i mod 8))) 1.

(** address.h:113-115 loc_address_set_bit. [-val] is computed on 32-bit
    unsigned integers; the store truncates to one octet. *)
Definition neg32 (v : N) : N := (2 ^ 32 - v mod 2 ^ 32) mod 2 ^ 32.
Definition addr_set_bit (a : addr) (i : nat) (v : N) : addr :=
  let x := oct a (i / 8) in
  upd a (i / 8)
    (N.lxor x (N.land (N.lxor (neg32 v) x) (N.shiftl 1 (N.of_nat (7 - i mod 8)))) mod 256).

(** address.h:117-131 loc_prefix_to_bitmask: the loop with i = prefix going down
    by 8 and j going up. The model's [i] is a natural number; the C int goes
    negative in the last step, which ends the loop as 0 does here. *)
Fixpoint bitmask_loop (m : addr) (i : nat) (j : nat) (fuel : nat) : addr :=
  match fuel with
  | O => m
  | S fuel' =>
      match i with
      | O => m
      | _ =>
          let m' := if (8 <=? i)%nat then upd m j 255
                    else upd m j (N.shiftl 255 (N.of_nat (8 - i)) mod 256) in
          bitmask_loop m' (i - 8) (S j) fuel'
      end
  end.
Definition prefix_to_bitmask (prefix : nat) : addr :=
  bitmask_loop (repeat 0 16) prefix 0 (S prefix).

(** Number of trailing zero bits of a non-zero octet (__builtin_ctz). *)
Fixpoint ctz_loop (x : N) (k : nat) (fuel : nat) : nat :=
  match fuel with
  | O => k
  | S fuel' => if N.testbit x (N.of_nat k) then k else ctz_loop x (S k) fuel'
  end.

(** __builtin_ctz on an octet. Its value for 0 is undefined in GNU C; the
    parameter [ctz0] stands for whatever number the hardware produces. *)
Definition ctz (ctz0 : nat) (x : N) : nat :=
  if x =? 0 then ctz0 else ctz_loop x 0 8.

(** address.h:133-161 loc_address_bit_length: loop over the octets from 15 down
    to [low_octet]; [n] octets remain. [bitlength] is unsigned but never wraps:
    at most 8 is taken off per octet. *)
Fixpoint bit_length_loop (ctz0 : nat) (a : addr) (bitlength : nat) (octet : nat) (n : nat) : nat :=
  match n with
  | O => 0
  | S n' =>
      let t := ctz ctz0 (oct a octet) in
      let t := if (8 <? t)%nat then 8%nat else t in
      let bitlength := (bitlength - t)%nat in
      if (t <? 8)%nat then bitlength
      else bit_length_loop ctz0 a bitlength (octet - 1) n'
  end.
Definition addr_bit_length (ctz0 : nat) (a : addr) : nat :=
  bit_length_loop ctz0 a (if v4mapped a then 32 else 128) 15 (16 - low_octet a).

(** Number of leading zero bits of a non-zero octet
    (__builtin_clz(x) - 24 for 32-bit int). *)
Definition clz8 (x : N) : nat := (7 - N.to_nat (N.log2 x))%nat.

(** address.h:163-188 loc_address_common_bits: loop over i..15; [n] octets
    remain. The error case is [None] (-EINVAL). *)
Fixpoint common_bits_loop (a1 a2 : addr) (i : nat) (bits : nat) (n : nat) : nat :=
  match n with
  | O => bits
  | S n' =>
      if oct a1 i =? oct a2 i then common_bits_loop a1 a2 (S i) (bits + 8) n'
      else (bits + clz8 (N.lxor (oct a1 i) (oct a2 i)))%nat
  end.
Definition addr_common_bits (a1 a2 : addr) : option nat :=
  if v4mapped a1 && negb (v4mapped a2) then None
  else if negb (v4mapped a1) && v4mapped a2 then None
  else Some (common_bits_loop a1 a2 (low_octet a1) 0 (16 - low_octet a1)).

(** address.h:190-208 loc_address_reset *)
Definition addr_reset (f : family) : addr :=
  match f with
  | AF_INET6 => repeat 0 16
  | AF_INET => repeat 0 10 ++ [255; 255] ++ repeat 0 4
  end.

(** address.h:210-228 loc_address_reset_last *)
Definition addr_reset_last (f : family) : addr :=
  match f with
  | AF_INET6 => repeat 255 16
  | AF_INET => repeat 0 10 ++ [255; 255] ++ repeat 255 4
  end.

(** Octet-wise operation; the C code works on four 32-bit words, which for
    bitwise operators is the same octet by octet. *)
Fixpoint map2 (f : N -> N -> N) (l1 l2 : list N) : list N :=
  match l1, l2 with
  | x :: l1', y :: l2' => f x y :: map2 f l1' l2'
  | _, _ => []
  end.

(** address.h:230-239 loc_address_and *)
Definition addr_and (a m : addr) : addr := map2 N.land a m.

(** address.h:241-250 loc_address_or: a | ~bitmask *)
Definition addr_or (a m : addr) : addr :=
  map2 (fun x y => N.lor x (N.lxor y 255)) a m.

(** address.h:252-281 loc_address_sub: octets 15 down to [low_octet address1];
    [x >> 8] is an arithmetic shift, i.e. floor division. *)
Fixpoint addr_sub_loop (res a1 a2 : addr) (remainder : Z) (octet : nat) (n : nat) : addr :=
  match n with
  | O => res
  | S n' =>
      let x := (Z.of_N (oct a1 octet) - Z.of_N (oct a2 octet) + remainder)%Z in
      addr_sub_loop (upd res octet (Z.to_N (x mod 256))) a1 a2 (x / 256) (octet - 1) n'
  end.
Definition addr_sub (a1 a2 : addr) : outcome addr :=
  if family_eqb (addr_family a1) (addr_family a2) then
    Ok (addr_sub_loop (addr_reset (addr_family a1)) a1 a2 0 15 (16 - low_octet a1))
  else Err 1.

(** address.h:283-297 loc_address_increment. [k] is octet + 1. The macro
    evaluates its lower bound again in every iteration on the address that is
    being modified, and so does the model. *)
Fixpoint inc_loop (a : addr) (k : nat) : addr :=
  match k with
  | O => a
  | S octet =>
      if (low_octet a <=? octet)%nat then
        if oct a octet <? 255 then upd a octet (oct a octet + 1)
        else inc_loop (upd a octet 0) octet
      else a
  end.
Definition addr_increment (a : addr) : addr :=
  if addr_all_ones a then a else inc_loop a 16.

(** address.h:299-313 loc_address_decrement, in the same way. *)
Fixpoint dec_loop (a : addr) (k : nat) : addr :=
  match k with
  | O => a
  | S octet =>
      if (low_octet a <=? octet)%nat then
        if 0 <? oct a octet then upd a octet (oct a octet - 1)
        else dec_loop (upd a octet 255) octet
      else a
  end.
Definition addr_decrement (a : addr) : addr :=
  if addr_all_zeroes a then a else dec_loop a 16.

(** address.h:315-328 loc_address_get_octet. The IPv4 branch extracts octet i of
    the little endian view of the last word, i.e. s6_addr[12 + i]. The IPv6
    branch admits i up to 31 although there are only 16 octets: [UB]. *)
Definition addr_get_octet (a : addr) (i : nat) : outcome N :=
  if v4mapped a then
    if (4 <=? i)%nat then Err (-ERANGE) else Ok (oct a (12 + i))
  else
    if (32 <=? i)%nat then Err (-ERANGE)
    else if (16 <=? i)%nat then UB else Ok (oct a i).

(** address.h:330-344 loc_address_get_nibble *)
Definition addr_get_nibble (a : addr) (i : nat) : outcome N :=
  do o <- addr_get_octet a (i / 2);
  let o := if (i mod 2 =? 0)%nat then N.shiftr o 4 else o in
  Ok (N.land o 15).
