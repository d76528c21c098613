(** Model of hexdump (src/libloc/private.h:60-105), which the library uses when it is built for debugging, with the two buffers
    on the stack. A cell that was never written is None. [p] are the octets, [len] their number. *)
From Coq Require Import NArith ZArith List Bool Arith.
From Verif Require Import Base.
Import ListNotations.
Open Scope N_scope.

Definition UINT_MOD : N := 4294967296.
Definition buffer := list (option N).

(** Octets are stored in a buffer; what is not in the buffer is undefined behaviour *)
Definition store (b : buffer) (at_ : nat) (l : list N) : outcome buffer :=
  if (length b <? at_ + length l)%nat then UB
  else Ok (firstn at_ b ++ map Some l ++ skipn (at_ + length l) b).
(** sprintf: the octets and a zero *)
Definition sprintf (b : buffer) (at_ : nat) (l : list N) : outcome buffer := store b at_ (l ++ [0]).
(** The string in a buffer, for %s *)
Fixpoint string_of (b : buffer) : outcome (list N) :=
  match b with
  | [] => UB
  | None :: _ => UB
  | Some 0 :: _ => Ok []
  | Some c :: b' => do s <- string_of b'; Ok (c :: s)
  end.

(** %x with at least [w] digits, filled with zeros *)
Definition digit (d : N) : N := if d <? 10 then 48 + d else 87 + d.
Fixpoint digits (w fuel : nat) (n : N) (acc : list N) : list N :=
  match fuel with
  | O => acc
  | S fuel' => match w with
               | O => if n =? 0 then acc else digits O fuel' (n / 16) (digit (n mod 16) :: acc)
               | S w' => digits w' fuel' (n / 16) (digit (n mod 16) :: acc)
               end
  end.
Definition fmt_x (w : nat) (n : N) : list N := digits w 8 n [].

Section Dump.
Variable p : N -> N.
Variable len : N.

(** 75-94: one octet *)
Definition dump_octet (i : N) (hex ascii : buffer) (out : list (list N * list N)) : outcome (buffer * buffer * list (list N * list N)) :=
  let k := N.to_nat (i mod 16) in
  do (hex, out) <-
    (if i mod 16 =? 0 then
       do out <- (if i =? 0 then Ok out
                  else do h <- string_of hex; do a <- string_of ascii; Ok (out ++ [(h, a)]));
       do hex <- sprintf hex 0 (fmt_x 4 i ++ [32]);
       Ok (hex, out)
     else Ok (hex, out));
  do hex <- sprintf hex (5 + k * 3) (32 :: fmt_x 2 (p i));
  do ascii <- store ascii k [if (p i <? 32) || (126 <? p i) then 46 else p i];
  do ascii <- store ascii (k + 1) [0];
  Ok (hex, ascii, out).

(** 73-95; the index is an unsigned int *)
Fixpoint dump_loop (fuel : nat) (i : N) (hex ascii : buffer) (out : list (list N * list N))
    : outcome (N * buffer * buffer * list (list N * list N)) :=
  if i <? len then
    match fuel with
    | O => Fuel
    | S fuel' => do (hex, ascii, out) <- dump_octet i hex ascii out;
                 dump_loop fuel' ((i + 1) mod UINT_MOD) hex ascii out
    end
  else Ok (i, hex, ascii, out).

(** 98-101 *)
Fixpoint dump_pad (fuel : nat) (i : N) (hex : buffer) : outcome buffer :=
  if i mod 16 =? 0 then Ok hex
  else match fuel with
       | O => Fuel
       | S fuel' => do hex <- sprintf hex (5 + N.to_nat (i mod 16) * 3) [32; 32; 32];
                    dump_pad fuel' ((i + 1) mod UINT_MOD) hex
       end.

(** 60-105: the lines, each with the two strings of "  %s %s\n" *)
Definition hexdump (fuel : nat) : outcome (list (list N * list N)) :=
  if len =? 0 then Ok []
  else
    do (i, hex, ascii, out) <- dump_loop fuel 0 (repeat None (16 * 3 + 6)) (repeat None 17) [];
    do hex <- dump_pad 16 i hex;
    do h <- string_of hex; do a <- string_of ascii;
    Ok (out ++ [(h, a)]).
End Dump.
