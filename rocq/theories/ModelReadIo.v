(** Model of the functions that read a database for its signatures, on a file on which fread may fail:
    loc_database_verify (src/database.c) and loc_writer_create_signature (src/writer.c), as in ModelVerify and
    ModelWriter. [fails i] is [Some k] if the i-th fread fails after k octets; it has then read less than
    asked, and feof is not set. A later fread tries again, as in the C library of GNU. Simplified: rewind and fseek
    work. *)
From Coq Require Import NArith ZArith List Bool Arith.
From Verif Require Import Base ModelFile ModelWriter ModelDatabase ModelVerify.
Import ListNotations.
Open Scope N_scope.

Section Read.
Variable fails : nat -> option nat.

(** The i-th fread of n octets, when [rest] is behind the position: what was read, what is left, feof *)
Definition fread (i n : nat) (rest : list N) : list N * list N * bool :=
  match fails i with
  | Some k => let t := Nat.min k (Nat.pred n) in (firstn t rest, skipn t rest, false)
  | None => (firstn n rest, skipn n rest, (length rest <? n)%nat)
  end.

(** database.c:625-641: from the i-th fread on, which is followed by the i-th update; [None] if an
    update fails, otherwise what was fed. *)
Fixpoint walk (upd : nat -> Z) (i : nat) (rest : list N) (fuel : nat) : outcome (option (list (list N))) :=
  match fuel with
  | O => Fuel
  | S fuel' =>
      let '(c, rest', eof) := fread i CHUNK rest in
      if negb (upd i =? 1)%Z then Ok None
      else if eof then Ok (Some [c])
      else do r <- walk upd (S i) rest' fuel';
           Ok (match r with Some l => Some (c :: l) | None => None end)
  end.

(** database.c:531-703 loc_database_verify, as verify *)
Definition verify_io (d : db) (k : verifier) (fuel : nat) : outcome Z :=
  let f := d_file d in
  if negb (vf_key k) then Ok (-1)%Z
  else if negb (vf_init k =? 1)%Z then Ok 1%Z
  else
    let '(magic, f, _) := fread 0 (N.to_nat MAGIC_SIZE) f in
    if (length magic <? N.to_nat MAGIC_SIZE)%nat then Ok 1%Z
    else if negb (vf_update k 0 =? 1)%Z then Ok 1%Z
    else
      let '(header, f, _) := fread 1 (N.to_nat HEADER_SIZE) f in
      if (length header <? N.to_nat HEADER_SIZE)%nat then Ok 1%Z
      else if negb (vf_update k 1 =? 1)%Z then Ok 1%Z
      else
        do r <- walk (vf_update k) 2 f fuel;
        match r with
        | None => Ok 1%Z
        | Some rest =>
             let stream := concat (magic :: clear_header header :: rest) in
             do r1 <- check_signature d k 0 stream (d_sig1 d);
             match r1 with
             | Some r => if negb ((r =? 0) || (r =? 1))%Z then Ok (-1)%Z
                         else
                           do r2 <- check_signature d k 1 stream (d_sig2 d);
                           match r2 with
                           | Some r' => if negb ((r' =? 0) || (r' =? 1))%Z then Ok (-1)%Z
                                        else if ((r =? 1) || (r' =? 1))%Z then Ok 0%Z else Ok 1%Z
                           | None => if (r =? 1)%Z then Ok 0%Z else Ok 1%Z
                           end
             | None =>
                 do r2 <- check_signature d k 0 stream (d_sig2 d);
                 match r2 with
                 | Some r' => if negb ((r' =? 0) || (r' =? 1))%Z then Ok (-1)%Z
                              else if (r' =? 1)%Z then Ok 0%Z else Ok 1%Z
                 | None => Ok 1%Z
                 end
             end
        end.

(** writer.c:604-622: the i-th fread is followed by the (i+1)-th update, the header is not read; the return
    value if something fails, otherwise what was fed *)
Fixpoint walk_sign (upd : nat -> Z) (i : nat) (rest : list N) (fuel : nat) : outcome (Z + list (list N)) :=
  match fuel with
  | O => Fuel
  | S fuel' =>
      let '(c, rest', eof) := fread i CHUNK rest in
      match fails i with
      | Some _ => Ok (inl 1%Z)
      | None =>
          if negb (upd (S i) =? 1)%Z then Ok (inl (-1)%Z)
          else if eof then Ok (inr [c])
          else do r <- walk_sign upd (S i) rest' fuel';
               Ok (match r with inr l => inr (c :: l) | inl z => inl z end)
      end
  end.

(** writer.c:553-643 loc_writer_create_signature, as create_signature *)
Definition create_signature_io (k : evp) (h : list N) (f : list N) (sig : list N * N) (fuel : nat) : outcome (Z * (list N * N)) :=
  let sig := (fst sig, SIG_MAX) in
  if negb (ev_init k =? 1)%Z then Ok (ev_init k, sig)
  else
    let '(magic, _, _) := fread 0 (N.to_nat MAGIC_SIZE) f in
    if (length magic <? N.to_nat MAGIC_SIZE)%nat then Ok (1%Z, sig)
    else if negb (ev_update k 0 =? 1)%Z then Ok (ev_update k 0, sig)
    else if negb (ev_update k 1 =? 1)%Z then Ok (ev_update k 1, sig)
    else
      do r <- walk_sign (ev_update k) 1 (skipn (N.to_nat (MAGIC_SIZE + HEADER_SIZE)) f) fuel;
      match r with
      | inl z => Ok (z, sig)
      | inr rest =>
          let (r, s) := ev_final k (concat (magic :: h :: rest)) in
          if negb (r =? 1)%Z then Ok ((-1)%Z, sig)
          else if SIG_MAX <? N.of_nat (length s) then UB
          else Ok (0%Z, (s ++ skipn (length s) (fst sig), N.of_nat (length s)))
      end.
End Read.
