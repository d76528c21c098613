(** Model of loc_writer_write (src/writer.c) on a file on which fwrite and fseek may fail. What is written is
    that of ModelWriter. [took i n] is what the i-th fwrite takes of n octets, [seeks i] whether the i-th fseek
    works; octets that fwrite has accepted into its buffer and that cannot be written later count as a
    failure of the fseek that writes them. Simplified: reading the file for the signatures
    works. *)
From Coq Require Import NArith ZArith List Bool Arith.
From Verif Require Import Base ModelCountryCode ModelNetwork ModelNetworkList ModelStringPool ModelObjects ModelTree ModelFile ModelWriter.
Import ListNotations.
Open Scope N_scope.

Record io := mkIo { took : nat -> nat -> nat; seeks : nat -> bool }.
(** A file that is written: the octets before the position, the nearest first, those behind
    it, and the number of calls of fwrite *)
Record stream := mkStream { s_back : list N; s_rest : list N; s_calls : nat }.
Definition s_file (s : stream) : list N := rev_append (s_back s) (s_rest s).

Definition fwrite (x : io) (s : stream) (b : list N) : stream * nat :=
  let t := Nat.min (took x (s_calls s) (length b)) (length b) in
  (mkStream (rev_append (firstn t b) (s_back s)) (skipn t (s_rest s)) (S (s_calls s)), t).
(** fseek from the position. Past the end of the file there are zeros; in C they are there when
    something is written behind them, and loc_writer_write does not return before it
    has written something: the position is not that of a page. *)
Definition fseek_cur (s : stream) (n : nat) : stream :=
  mkStream (rev_append (firstn n (s_rest s ++ repeat 0 n)) (s_back s)) (skipn n (s_rest s)) (s_calls s).
Definition fseek_set (s : stream) (n : nat) : stream :=
  mkStream (rev (firstn n (s_file s))) (skipn n (s_file s)) (s_calls s).

(** writer.c:283-287 align_page_boundary *)
Fixpoint align_page_boundary (x : io) (s : stream) (off : N) (fuel : nat) : outcome (stream * N) :=
  if off mod PAGE_SIZE =? 0 then Ok (s, off)
  else match fuel with
       | O => Fuel
       | S fuel' => let (s, t) := fwrite x s [0] in align_page_boundary x s (off + N.of_nat t) fuel'
       end.

(** Records of [n] octets; each is written with one fwrite *)
Fixpoint pieces (n : nat) (l : list N) (fuel : nat) : list (list N) :=
  match fuel, l with
  | S fuel', _ :: _ => firstn n l :: pieces n (skipn n l) fuel'
  | _, _ => []
  end.
Definition records (n : N) (l : list N) : list (list N) := pieces (N.to_nat n) l (length l).
Fixpoint write_records (x : io) (s : stream) (off : N) (l : list (list N)) : stream * N :=
  match l with
  | [] => (s, off)
  | b :: l' => let (s, t) := fwrite x s b in write_records x s (off + N.of_nat t) l'
  end.

Section Write.
Variable ctz0 : nat.
Variable held : network -> bool.
Variable key1 key2 : option evp.
Variable hole : nat -> N * N * (N * N).
Variable block0 : cc2.
Variable x : io.
Variable fuel : nat.

(** writer.c:706-724, as write_sections; the offsets of the header count what fwrite has
    taken, the lengths what it was given (but for the pool, 298-300) *)
Definition write_sections_io (w : writer) (now : N) (s : stream) (off : N) : outcome (writer * header * stream) :=
  do (s, off) <- align_page_boundary x s off fuel;
  let as_offset := off in
  let w := with_as w (olist_sort as_cmp (w_as w)) in
  do (p, bytes) <- write_ases (w_pool w) (ol_elems (w_as w));
  let w := with_pool w p in
  let as_length := N.of_nat (length bytes) in
  let (s, off) := write_records x s off (records AS_SIZE bytes) in
  do (s, off) <- align_page_boundary x s off fuel;
  let tree_offset := off in
  do t <- cleanup ctz0 held (w_tree w);
  let w := with_tree w t in
  do (nodes, nets) <- write_nodes [t] 0 0 (all_nodes t);
  let bytes := flat_map enc_node nodes in
  let tree_length := N.of_nat (length bytes) in
  let (s, off) := write_records x s off (records NODE_SIZE bytes) in
  do (s, off) <- align_page_boundary x s off fuel;
  let data_offset := off in
  let bytes := write_networks hole 0 nets in
  let data_length := N.of_nat (length bytes) in
  let (s, off) := write_records x s off (records NETWORK_SIZE bytes) in
  do (s, off) <- align_page_boundary x s off fuel;
  let countries_offset := off in
  do (p, bytes) <- write_countries (w_pool w) block0 (ol_elems (w_countries w));
  let w := with_pool w p in
  let countries_length := N.of_nat (length bytes) in
  let (s, off) := write_records x s off (records COUNTRY_SIZE bytes) in
  do (s, off) <- align_page_boundary x s off fuel;
  let pool_offset := off in
  let bytes := sp_data (w_pool w) in
  let (s, t) := fwrite x s bytes in
  let pool_length := N.of_nat t in
  Ok (w,
      mkHeader now (N.of_nat (w_vendor w)) (N.of_nat (w_description w)) (N.of_nat (w_license w))
        as_offset as_length data_offset data_length tree_offset tree_length
        countries_offset countries_length pool_offset pool_length
        0 0 (repeat 0 (N.to_nat SIG_MAX)) (repeat 0 (N.to_nat SIG_MAX)) (repeat 0 32%nat),
      s).

(** writer.c:645-786 loc_writer_write, as writer_write *)
Definition writer_write_io (w : writer) (old : list N) (now : N) (version : N) : outcome (Z * writer * list N) :=
  if negb ((version =? 0) || (version =? VERSION_1)) then Ok ((-1)%Z, w, old)
  else if negb (seeks x 0) then Ok ((-1)%Z, w, old)
  else
    let (s, t) := fwrite x (mkStream [] old 0) (MAGIC ++ [VERSION_1]) in
    if negb (seeks x 1) then Ok ((-1)%Z, w, s_file s)
    else
      do (w, h, s) <- write_sections_io w now (fseek_cur s (N.to_nat HEADER_SIZE)) (N.of_nat t + HEADER_SIZE);
      let f := s_file s in
      do (r, s1) <- match key1 with
                    | Some k => create_signature k (enc_header h) f (w_sig1 w)
                    | None => Ok (0%Z, w_sig1 w)
                    end;
      let w := with_sigs w s1 (w_sig2 w) in
      if negb (r =? 0)%Z then Ok (r, w, f)
      else
        do (r, s2) <- match key2 with
                      | Some k => create_signature k (enc_header h) f (w_sig2 w)
                      | None => Ok (0%Z, w_sig2 w)
                      end;
        let w := with_sigs w (w_sig1 w) s2 in
        if negb (r =? 0)%Z then Ok (r, w, f)
        else if negb (seeks x 2) then Ok ((-1)%Z, w, f)
        else
          let b := enc_header (sign_header h (w_sig1 w) (w_sig2 w)) in
          let (s, t) := fwrite x (fseek_set s (N.to_nat MAGIC_SIZE)) b in
          (* 771-775: the return value is that of fseek *)
          if (t <? length b)%nat then Ok (0%Z, w, s_file s)
          else if negb (seeks x 3) then Ok ((-1)%Z, w, s_file s)
          else Ok (0%Z, w, s_file s).
End Write.
