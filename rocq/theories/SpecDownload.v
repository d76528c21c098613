(** What the mirrors deliver. The decompressor is a parameter: any function of a
    state and a chunk. *)
From Coq Require Import NArith ZArith List Bool Arith.
From Verif Require Import ModelDownload.
Import ListNotations.
Open Scope N_scope.

Section Deliver.
  Variable St : Type.
  Variable decompress : St -> list N -> decompressed St.

  (** The whole body (up to the first empty chunk) decompresses to [o]. *)
  Inductive delivers : St -> list (list N) -> list N -> Prop :=
  | d_end s : delivers s [] []
  | d_eof s cs : delivers s ([] :: cs) []
  | d_chunk s s' c cs b o : c <> [] -> decompress s c = Out s' b -> delivers s' cs o -> delivers s (c :: cs) (b ++ o).

  (** The body starts with chunks that decompress to [o], then comes one that
      does not decompress. *)
  Inductive corrupted : St -> list (list N) -> list N -> Prop :=
  | c_bad s c cs : c <> [] -> decompress s c = LzmaError -> corrupted s (c :: cs) []
  | c_chunk s s' c cs b o : c <> [] -> decompress s c = Out s' b -> corrupted s' cs o -> corrupted s (c :: cs) (b ++ o).

  Variable init : St.

  (** A mirror that was tried in vain and the octets it delivered. *)
  Inductive in_vain : mirror -> list N -> Prop :=
  | v_http code : in_vain (HttpError code) []
  | v_corrupted cs broken o : corrupted init cs o -> in_vain (Body cs broken) o
  | v_refused cs broken o : delivers init cs o -> in_vain (Body cs broken) o.

  Definition whole (m : mirror) (o : list N) : Prop :=
    exists cs broken, m = Body cs broken /\ delivers init cs o.
End Deliver.
