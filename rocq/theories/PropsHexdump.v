(** The dumps in the log of a library that was built for debugging (C90). [p] are the octets that are dumped. *)
From Coq Require Import NArith ZArith List Bool Arith Lia.
From Verif Require Import Base ModelHexdump SpecHexdump LemmasHexdump.
Import ListNotations.
Open Scope N_scope.

(** For all octets, and every number of them below 2^32: nothing is written behind the buffers, nothing is read that was not
    written, and the lines are those of the octets. *)
Theorem C90_dump : forall p, (forall i, p i < 256) -> forall len fuel,
  len < 4294967296 -> (N.to_nat len <= fuel)%nat -> hexdump p len fuel = Ok (dumped p len).
Proof. exact dump_ok. Qed.
Print Assumptions C90_dump.

(** They say what the octets are, *)
Theorem C90_octets : forall p p' len, (forall i, p i < 256) -> (forall i, p' i < 256) ->
  dumped p len = dumped p' len -> forall i, i < len -> p i = p' i.
Proof. exact dump_inj. Qed.
Print Assumptions C90_octets.

(** and the first 65536, more than which the library does not dump at once, have their offset. *)
Theorem C90_offset : forall o, o < 65536 -> offset_text o = hex_of 4 o ++ [32].
Proof. exact offset_exact. Qed.
Print Assumptions C90_offset.
Theorem C90_offset_unique : forall o o', o < 65536 -> o' < 65536 -> offset_text o = offset_text o' -> o = o'.
Proof. exact offset_inj. Qed.
Print Assumptions C90_offset_unique.

(** From 2^20 on the last digit of the offset is overwritten: two lines can have the same offset. *)
Theorem C90_offset_refuted : exists p len, (forall i, p i < 256) /\
  exists o o', o < len /\ o' < len /\ o <> o' /\ o mod 16 = 0 /\ o' mod 16 = 0 /\ line p o 16 = line p o' 16.
Proof.
  exists (fun _ => 65), 2000000. split; [intros i; reflexivity|]. exists 65536, 1048576.
  repeat (split; [first [reflexivity|discriminate]|]). vm_compute. reflexivity.
Qed.
Print Assumptions C90_offset_refuted.

(** With 2^32 octets or more it does not end: the index is an unsigned int. *)
Theorem C90_endless_refuted : forall p, (forall i, p i < 256) -> forall len fuel,
  4294967296 <= len -> hexdump p len fuel = Fuel.
Proof. exact endless. Qed.
Print Assumptions C90_endless_refuted.

(** ** Cases: the magic of a database, and one line and a bit *)
Definition magic0 (i : N) : N := nth (N.to_nat i) [76; 79; 67; 68; 66; 88; 88; 1] 0.
Definition text0 (i : N) : N := (i * 15) mod 256.
Example C90_case : hexdump magic0 8 8 = Ok [
  ([48; 48; 48; 48; 32; 32; 52; 99; 32; 52; 102; 32; 52; 51; 32; 52; 52; 32; 52; 50; 32; 53; 56; 32; 53; 56; 32; 48; 49] ++ repeat 32 24,
   [76; 79; 67; 68; 66; 88; 88; 46])] /\
  hexdump text0 17 17 = Ok [
  ([48; 48; 48; 48; 32] ++ flat_map (fun k => 32 :: hex_of 2 (text0 k)) [0; 1; 2; 3; 4; 5; 6; 7; 8; 9; 10; 11; 12; 13; 14; 15],
   [46; 46; 46; 45; 60; 75; 90; 105; 120; 46; 46; 46; 46; 46; 46; 46]);
  ([48; 48; 49; 48; 32; 32; 102; 48] ++ repeat 32 45, [46])].
Proof. split; reflexivity. Qed.
