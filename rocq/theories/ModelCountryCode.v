(** Model of the country code functions of src/country.c and
    src/libloc/country.h. A C string is the list of its characters without the
    terminating NUL, a pointer that may be NULL an [option]. *)
From Coq Require Import NArith ZArith List Bool Arith.
From Verif Require Import Base.
Import ListNotations.
Open Scope N_scope.

Notation cstr := (list N).

(** A character array of three bytes of which the third is always NUL
    (network.c:45, country.c:44-45) is modelled by its first two bytes. *)
Definition cc2 := (N * N)%type.

(** The C string starting at such an array. *)
Definition cc_str (c : cc2) : cstr :=
  let (a, b) := c in
  if a =? 0 then [] else if b =? 0 then [a] else [a; b].

(** Byte [i] of a C string, the terminating NUL included. *)
Definition chr (s : cstr) (i : nat) : N := nth i s 0.

(** country.h:53-57 loc_country_code_copy: two bytes. Copying from a C string of
    length one copies the NUL; the callers never pass an empty string. *)
Definition cc_copy (s : cstr) : cc2 := (chr s 0, chr s 1).

(** country.h:59-61 loc_country_code_cmp: memcmp over two bytes *)
Definition cc_cmp (c d : cc2) : Z :=
  let (c0, c1) := c in let (d0, d1) := d in
  if c0 <? d0 then -1 else if d0 <? c0 then 1
  else if c1 <? d1 then -1 else if d1 <? c1 then 1 else 0%Z.

(** country.c:196-217 loc_country_code_is_valid. 'A' = 65, 'Z' = 90, 'X' = 88. A
    character above 127 is refused whether char is signed or not. *)
Definition cc_is_valid (s : option cstr) : bool :=
  match s with
  | None | Some [] => false
  | Some s =>
      if negb (Nat.eqb (length s) 2) then false
      else if existsb (fun i => (chr s i <? 65) || (90 <? chr s i)) [0%nat; 1%nat] then false
      else if chr s 0 =? 88 then false
      else true
  end.

(** country.c:27-36 loc_special_countries: "A1", "A2", "A3", "XD"; the entry with
    flags 0 ends the table. *)
Definition special_countries : list (cstr * N) :=
  [ ([65; 49], 1); ([65; 50], 2); ([65; 51], 4); ([88; 68], 8) ].

(** strncmp(s, t, 2) == 0 *)
Definition strncmp2_eq (s t : cstr) : bool :=
  (chr s 0 =? chr t 0) && ((chr s 0 =? 0) || (chr s 1 =? chr t 1)).

(** country.c:219-234 loc_country_special_code_to_flag *)
Fixpoint special_scan (tab : list (cstr * N)) (s : cstr) : Z :=
  match tab with
  | [] => 0
  | (code, flags) :: tab' =>
      if strncmp2_eq code s then Z.of_N flags else special_scan tab' s
  end.
Definition special_code_to_flag (s : option cstr) : Z :=
  match s with
  | None | Some [] => -1
  | Some s => special_scan special_countries s
  end.
