(** What the theorems about writing to a file that fails are about (C87). *)
From Coq Require Import NArith ZArith List Bool Arith.
From Verif Require Import Base ModelNetwork ModelWriter ModelWriteIo SpecWriter.
Import ListNotations.
Open Scope N_scope.

(** write_to (SpecWriter) on a file that answers as [q]; [fuel] bounds how often one
    alignment writes an octet. *)
Definition write_to_io (ctz0 : nat) (held : network -> bool) (key1 key2 : option evp) (q : io) (fuel : nat)
    (w : writer) (x : save) : outcome (Z * writer * list N) :=
  writer_write_io ctz0 held key1 key2 (s_hole x) (s_block0 x) q fuel w (s_old x) (s_now x) (s_version x).

(** Every call takes what it is given *)
Definition takes_all (q : io) : Prop := forall i n, (n <= took q i n)%nat.
Definition seeks_all (q : io) : Prop := forall i, seeks q i = true.
(** A disk that is full when the magic was written: no later call takes an octet *)
Definition full_disk (q : io) : Prop := forall i n, (1 <= i)%nat -> took q i n = 0%nat.
