(** What a dump of octets is (C90): lines of sixteen. *)
From Coq Require Import NArith List Bool Arith.
Import ListNotations.
Open Scope N_scope.

(** A hexadecimal digit, and [w] of them *)
Definition hex_digit (d : N) : N := nth (N.to_nat d) [48; 49; 50; 51; 52; 53; 54; 55; 56; 57; 97; 98; 99; 100; 101; 102] 0.
Definition hex_of (w : nat) (n : N) : list N := map (fun k => hex_digit (n / 16 ^ N.of_nat k mod 16)) (rev (seq 0 w)).
(** The least number of digits of a number below 2^32, but at least four *)
Definition width (n : N) : nat := 4 + length (filter (fun k => 16 ^ k <=? n) [4; 5; 6; 7]).
Definition visible (c : N) : N := if (32 <=? c) && (c <=? 126) then c else 46.

(** The line of [n] octets from [o] on: five places for the offset and a space, three for each of sixteen octets; and their text *)
Definition offset_text (o : N) : list N := firstn 5 (hex_of (width o) o ++ [32]).
Definition octets (p : N -> N) (o : N) (n : nat) : list N := map (fun k => p (o + N.of_nat k)) (seq 0 n).
Definition line (p : N -> N) (o : N) (n : nat) : list N * list N :=
  (offset_text o ++ flat_map (fun c => 32 :: hex_of 2 c) (octets p o n) ++ repeat 32 (3 * (16 - n)),
   map visible (octets p o n)).
(** All lines: all but the last have sixteen octets *)
Definition dumped (p : N -> N) (len : N) : list (list N * list N) :=
  map (fun j => let o := 16 * N.of_nat j in line p o (N.to_nat (N.min 16 (len - o)))) (seq 0 (N.to_nat ((len + 15) / 16))).
