(** Model of the verification of signatures, src/database.c *)
From Coq Require Import NArith ZArith List Bool Arith.
From Verif Require Import Base ModelFile ModelWriter ModelDatabase.
Import ListNotations.
Open Scope N_scope.

(** A public key and what OpenSSL returns with it: does PEM_read_PUBKEY succeed,
    EVP_DigestVerifyInit, the i-th EVP_DigestVerifyUpdate, and the i-th
    EVP_DigestVerifyFinal for the octets that have been fed and a signature. *)
Record verifier := mkVerifier {
  vf_key : bool; vf_init : Z; vf_update : nat -> Z; vf_final : nat -> list N -> list N -> Z
}.

(** database.c:598-602: the header with the signatures cleared *)
Definition clear_header (h : list N) : list N :=
  firstn 60 h ++ repeat 0 (N.to_nat (2 + 2 + SIG_MAX + SIG_MAX)) ++ skipn (N.to_nat (60 + 2 + 2 + SIG_MAX + SIG_MAX)) h.

(** database.c:646-662 and 665-681: one signature; the return value of
    EVP_DigestVerifyFinal, [None] if there is no signature. *)
Definition check_signature (d : db) (k : verifier) (i : nat) (stream : list N) (sig : N * N) : outcome (option Z) :=
  if snd sig =? 0 then Ok None
  else do s <- rd (d_file d) (fst sig) (snd sig); Ok (Some (vf_final k i stream s)).

(** database.c:531-703 loc_database_verify. db->f has the octets of the file that
    has been mapped. The pointers to the signatures are set by loc_database_open, so
    that the test at 535 is false; the version is always 1. *)
Definition verify (d : db) (k : verifier) : outcome Z :=
  let f := d_file d in
  if negb (vf_key k) then Ok (-1)%Z
  else if negb (vf_init k =? 1)%Z then Ok 1%Z
  else if flen f <? MAGIC_SIZE then Ok 1%Z
  else if negb (vf_update k 0 =? 1)%Z then Ok 1%Z
  else if flen f <? MAGIC_SIZE + HEADER_SIZE then Ok 1%Z
  else
    let magic := firstn (N.to_nat MAGIC_SIZE) f in
    let header := clear_header (firstn (N.to_nat HEADER_SIZE) (skipn (N.to_nat MAGIC_SIZE) f)) in
    let rest := read_chunks (skipn (N.to_nat (MAGIC_SIZE + HEADER_SIZE)) f) in
    if negb (vf_update k 1 =? 1)%Z then Ok 1%Z
    else match feed (vf_update k) 2 rest with
         | Some _ => Ok 1%Z
         | None =>
             let stream := concat (magic :: header :: rest) in
             do r1 <- check_signature d k 0 stream (d_sig1 d);
             match r1 with
             | Some r => if negb ((r =? 0) || (r =? 1))%Z then Ok (-1)%Z
                         else
                           do r2 <- check_signature d k 1 stream (d_sig2 d);
                           match r2 with
                           | Some r' => if negb ((r' =? 0) || (r' =? 1))%Z then Ok (-1)%Z
                                        else if ((r =? 1) || (r' =? 1))%Z then Ok 0%Z else Ok 1%Z
                           | None => if (r =? 1)%Z then Ok 0%Z else Ok 1%Z
                           end
             | None =>
                 do r2 <- check_signature d k 0 stream (d_sig2 d);
                 match r2 with
                 | Some r' => if negb ((r' =? 0) || (r' =? 1))%Z then Ok (-1)%Z
                              else if (r' =? 1)%Z then Ok 0%Z else Ok 1%Z
                 | None => Ok 1%Z
                 end
             end
         end.
