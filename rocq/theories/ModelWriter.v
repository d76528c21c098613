(** Model of src/writer.c. stdio is taken to succeed: every fwrite writes all of
    its octets and every fseek works. *)
From Coq Require Import NArith ZArith List Bool Arith.
From Verif Require Import Base ModelAddress ModelCountryCode ModelNetwork ModelTree ModelStringPool
  ModelObjects ModelFile.
Import ListNotations.
Open Scope N_scope.

(** writer.c:47-70 struct loc_writer. A signature is its buffer of SIG_MAX octets
    and the stored length. [w_next] counts the objects handed out to callers. *)
Record writer := mkWriter {
  w_pool : pool;
  w_vendor : nat; w_description : nat; w_license : nat;
  w_sig1 : list N * N; w_sig2 : list N * N;
  w_tree : tree;
  w_as : olist as_obj;
  w_countries : olist country;
  w_next : nat
}.

(** writer.c:91-153 loc_writer_new without the parsing of the keys: the pool gets
    an empty string; the other fields are zero. *)
Definition no_sig : list N * N := (repeat 0 (N.to_nat SIG_MAX), 0).
Definition writer_new : outcome writer :=
  do (p, off) <- pool_add pool_new (Some []);
  if negb (off =? 0)%nat then Err (Z.of_nat off)
  else Ok (mkWriter p 0 0 0 no_sig no_sig tree_new olist_new olist_new 0).

Definition with_pool (w : writer) (p : pool) : writer :=
  mkWriter p (w_vendor w) (w_description w) (w_license w) (w_sig1 w) (w_sig2 w) (w_tree w) (w_as w) (w_countries w) (w_next w).
Definition with_tree (w : writer) (t : tree) : writer :=
  mkWriter (w_pool w) (w_vendor w) (w_description w) (w_license w) (w_sig1 w) (w_sig2 w) t (w_as w) (w_countries w) (w_next w).
Definition with_as (w : writer) (l : olist as_obj) : writer :=
  mkWriter (w_pool w) (w_vendor w) (w_description w) (w_license w) (w_sig1 w) (w_sig2 w) (w_tree w) l (w_countries w) (w_next w).
Definition with_countries (w : writer) (l : olist country) : writer :=
  mkWriter (w_pool w) (w_vendor w) (w_description w) (w_license w) (w_sig1 w) (w_sig2 w) (w_tree w) (w_as w) l (w_next w).
Definition with_sigs (w : writer) (s1 s2 : list N * N) : writer :=
  mkWriter (w_pool w) (w_vendor w) (w_description w) (w_license w) s1 s2 (w_tree w) (w_as w) (w_countries w) (w_next w).
Definition count_object (w : writer) : writer :=
  mkWriter (w_pool w) (w_vendor w) (w_description w) (w_license w) (w_sig1 w) (w_sig2 w) (w_tree w) (w_as w) (w_countries w) (S (w_next w)).

(** writer.c:203-211 loc_writer_set_vendor *)
Definition set_vendor (w : writer) (s : option cstr) : outcome writer :=
  do (p, off) <- pool_add (w_pool w) s;
  Ok (mkWriter p off (w_description w) (w_license w) (w_sig1 w) (w_sig2 w) (w_tree w) (w_as w) (w_countries w) (w_next w)).
(** writer.c:217-225 loc_writer_set_description *)
Definition set_description (w : writer) (s : option cstr) : outcome writer :=
  do (p, off) <- pool_add (w_pool w) s;
  Ok (mkWriter p (w_vendor w) off (w_license w) (w_sig1 w) (w_sig2 w) (w_tree w) (w_as w) (w_countries w) (w_next w)).
(** writer.c:231-239 loc_writer_set_license *)
Definition set_license (w : writer) (s : option cstr) : outcome writer :=
  do (p, off) <- pool_add (w_pool w) s;
  Ok (mkWriter p (w_vendor w) (w_description w) off (w_sig1 w) (w_sig2 w) (w_tree w) (w_as w) (w_countries w) (w_next w)).

(** writer.c:241-249 loc_writer_add_as: the new object (number [w_next w]) is
    returned whether or not it was put into the list. *)
Definition writer_add_as (w : writer) (number : N) : outcome writer :=
  do l <- olist_append as_cmp (w_as w) (as_new (w_next w) number);
  Ok (count_object (with_as w l)).

(** writer.c:263-271 loc_writer_add_country *)
Definition writer_add_country (w : writer) (code : option cstr) : outcome writer :=
  do c <- country_new (w_next w) code;
  do l <- olist_append country_cmp (w_countries w) c;
  Ok (count_object (with_countries w l)).

(** The caller changes an AS or country object that was returned before; the list
    shares the object if it holds it. *)
Definition name_as (w : writer) (id : nat) (s : option cstr) : writer :=
  with_as w (mkOlist (map (fun a => if (as_id a =? id)%nat then as_set_name a s else a) (ol_elems (w_as w)))
                     (ol_cap (w_as w))).
Fixpoint change_country (f : country -> outcome country) (id : nat) (l : list country) : outcome (list country) :=
  match l with
  | [] => Ok []
  | c :: l' =>
      do c' <- if (c_id c =? id)%nat then f c else Ok c;
      do l'' <- change_country f id l';
      Ok (c' :: l'')
  end.
Definition name_country (w : writer) (id : nat) (s : option cstr) : outcome writer :=
  do l <- change_country (fun c => country_set_name c s) id (ol_elems (w_countries w));
  Ok (with_countries w (mkOlist l (ol_cap (w_countries w)))).
Definition continent_country (w : writer) (id : nat) (s : option cstr) : outcome writer :=
  do l <- change_country (fun c => country_set_continent_code c s) id (ol_elems (w_countries w));
  Ok (with_countries w (mkOlist l (ol_cap (w_countries w)))).

(** The part of the file after the header is built as a list of octets; the
    variable offset of the C functions is the position after it. *)
Definition offset (out : list N) : N := MAGIC_SIZE + HEADER_SIZE + N.of_nat (length out).

(** writer.c:283-287 align_page_boundary: one zero octet at a time until the
    offset is a multiple of the page size *)
Definition align (out : list N) : list N :=
  out ++ repeat 0 (N.to_nat ((PAGE_SIZE - offset out mod PAGE_SIZE) mod PAGE_SIZE)).

(** writer.c:318-332, the loop of loc_database_write_as_section, with
    as.c:132-141 loc_as_to_database_v1 *)
Fixpoint write_ases (p : pool) (l : list as_obj) : outcome (pool * list N) :=
  match l with
  | [] => Ok (p, [])
  | a :: l' =>
      do (p, name) <- pool_add p (Some (match as_name a with Some s => s | None => [] end));
      do (p, rest) <- write_ases p l';
      Ok (p, enc_as (as_number a) (N.of_nat name) ++ rest)
  end.

(** writer.c:432-489: the breadth first numbering of the nodes in
    loc_database_write_networks. [index] is the last index given to a node,
    [network_index] the next index of a network; [t] can only be [Nil] for a
    missing root. [fuel] is the number of nodes. *)
Fixpoint write_nodes (queue : list tree) (index network_index : N) (fuel : nat)
  : outcome (list node_rec * list network) :=
  match queue with
  | [] => Ok ([], [])
  | t :: queue =>
      match fuel, t with
      | O, _ => Fuel
      | _, Nil => UB
      | S fuel', Node _ net zero one =>
          let '(index_zero, index, queue) :=
            match zero with Nil => (0, index, queue) | _ => (index + 1, index + 1, queue ++ [zero]) end in
          let '(index_one, index, queue) :=
            match one with Nil => (0, index, queue) | _ => (index + 1, index + 1, queue ++ [one]) end in
          match net with
          | None =>
              do (nodes, nets) <- write_nodes queue index network_index fuel';
              Ok ((index_zero, index_one, NO_NETWORK) :: nodes, nets)
          | Some x =>
              do (nodes, nets) <- write_nodes queue index (network_index + 1) fuel';
              Ok ((index_zero, index_one, network_index) :: nodes, x :: nets)
          end
      end
  end.
Fixpoint all_nodes (t : tree) : nat :=
  match t with
  | Nil => 0
  | Node _ _ z o => 1 + all_nodes z + all_nodes o
  end.

(** writer.c:502-515: the records of the networks; [hole] gives the octets that
    are not initialised. *)
Fixpoint write_networks (hole : nat -> N * N * (N * N)) (i : nat) (l : list network) : list N :=
  match l with
  | [] => []
  | n :: l' => enc_network (hole i) n ++ write_networks hole (S i) l'
  end.

(** writer.c:531-543, the loop of loc_database_write_countries, with
    country.c:175-194 loc_country_to_database_v1. The record is one local variable
    that is used again and again; [block] is the continent code in it. *)
Fixpoint write_countries (p : pool) (block : cc2) (l : list country) : outcome (pool * list N) :=
  match l with
  | [] => Ok (p, [])
  | c :: l' =>
      let block := if fst (c_continent c) =? 0 then block else c_continent c in
      do (p, name) <- match c_name c with
                      | NoName => Ok (p, 0%nat)
                      | Name s => pool_add p (Some s)
                      | Dangling => UB
                      end;
      do (p, rest) <- write_countries p block l';
      Ok (p, enc_country (c_code c) block (N.of_nat name) ++ rest)
  end.

(** What the OpenSSL signing functions do with a key: the return codes of
    EVP_DigestSignInit, of the i-th EVP_DigestSignUpdate, and of
    EVP_DigestSignFinal with the signature for the octets that were fed in. *)
Record evp := mkEvp { ev_init : Z; ev_update : nat -> Z; ev_final : list N -> Z * list N }.

(** writer.c:604-622: what is read in chunks until the end of the file is seen,
    i.e. until a chunk is short. *)
Definition CHUNK : nat := N.to_nat 65536.
Fixpoint chunks (l : list N) (fuel : nat) {struct fuel} : list (list N) :=
  match fuel with
  | O => []
  | S fuel' =>
      if (length l <? CHUNK)%nat then [l]
      else firstn CHUNK l :: chunks (skipn CHUNK l) fuel'
  end.
Definition read_chunks (l : list N) : list (list N) := chunks l (S (length l)).

(** The i-th update fails? The first failing return code counts. *)
Fixpoint feed (upd : nat -> Z) (i : nat) (l : list (list N)) : option (nat * Z) :=
  match l with
  | [] => None
  | _ :: l' => if (upd i =? 1)%Z then feed upd (S i) l' else Some (i, upd i)
  end.

(** writer.c:553-643 loc_writer_create_signature: the return value and the
    signature buffer of the writer afterwards. A failing update of the magic and
    of the header (0 and 1) returns the code of OpenSSL, a later one -1. *)
Definition create_signature (k : evp) (h : list N) (f : list N) (sig : list N * N) : outcome (Z * (list N * N)) :=
  let sig := (fst sig, SIG_MAX) in
  if negb (ev_init k =? 1)%Z then Ok (ev_init k, sig)
  else if N.of_nat (length f) <? MAGIC_SIZE then Ok (1%Z, sig)
  else
    let stream := firstn (N.to_nat MAGIC_SIZE) f :: h :: read_chunks (skipn (N.to_nat (MAGIC_SIZE + HEADER_SIZE)) f) in
    match feed (ev_update k) 0 stream with
    | Some (i, r) => Ok ((if (i <? 2)%nat then r else -1)%Z, sig)
    | None =>
        let (r, s) := ev_final k (concat stream) in
        if negb (r =? 1)%Z then Ok ((-1)%Z, sig)
        else if SIG_MAX <? N.of_nat (length s) then UB
        else Ok (0%Z, (s ++ skipn (length s) (fst sig), N.of_nat (length s)))
    end.

(** writer.c:750-764: the signature in the header *)
Definition sig_field (sig : list N * N) : list N :=
  firstn (N.to_nat (snd sig)) (fst sig) ++ repeat 0 (N.to_nat (SIG_MAX - snd sig)).

Section Write.
Variable ctz0 : nat.                 (* __builtin_ctz(0) *)
Variable held : network -> bool.     (* networks the caller holds a reference to *)
Variable key1 key2 : option evp.     (* the private keys *)
Variable hole : nat -> N * N * (N * N).  (* uninitialised octets in the network records *)
Variable block0 : cc2.               (* uninitialised continent code of the country record *)

(** writer.c:706-724: all sections, in the order in which they are written, the
    writer afterwards, and the header without signatures. *)
Definition write_sections (w : writer) (now : N) : outcome (writer * header * list N) :=
  let out := align [] in
  (* writer.c:305-340 loc_database_write_as_section *)
  let as_offset := offset out in
  let w := with_as w (olist_sort as_cmp (w_as w)) in
  do (p, bytes) <- write_ases (w_pool w) (ol_elems (w_as w));
  let w := with_pool w p in
  let as_length := N.of_nat (length bytes) in
  let out := align (out ++ bytes) in
  (* writer.c:391-522 loc_database_write_networks *)
  let tree_offset := offset out in
  do t <- cleanup ctz0 held (w_tree w);
  let w := with_tree w t in
  do (nodes, nets) <- write_nodes [t] 0 0 (all_nodes t);
  let bytes := flat_map enc_node nodes in
  let tree_length := N.of_nat (length bytes) in
  let out := align (out ++ bytes) in
  let data_offset := offset out in
  let bytes := write_networks hole 0 nets in
  let data_length := N.of_nat (length bytes) in
  let out := align (out ++ bytes) in
  (* writer.c:524-551 loc_database_write_countries *)
  let countries_offset := offset out in
  do (p, bytes) <- write_countries (w_pool w) block0 (ol_elems (w_countries w));
  let w := with_pool w p in
  let countries_length := N.of_nat (length bytes) in
  let out := align (out ++ bytes) in
  (* writer.c:289-303 loc_database_write_pool *)
  let pool_offset := offset out in
  let bytes := sp_data (w_pool w) in
  let pool_length := N.of_nat (length bytes) in
  let out := out ++ bytes in
  Ok (w,
      mkHeader now (N.of_nat (w_vendor w)) (N.of_nat (w_description w)) (N.of_nat (w_license w))
        as_offset as_length data_offset data_length tree_offset tree_length
        countries_offset countries_length pool_offset pool_length
        0 0 (repeat 0 (N.to_nat SIG_MAX)) (repeat 0 (N.to_nat SIG_MAX)) (repeat 0 32%nat),
      out).

(** The header with the signatures, writer.c:749-764 *)
Definition sign_header (h : header) (s1 s2 : list N * N) : header :=
  mkHeader (h_created_at h) (h_vendor h) (h_description h) (h_license h)
    (h_as_offset h) (h_as_length h) (h_data_offset h) (h_data_length h)
    (h_tree_offset h) (h_tree_length h) (h_countries_offset h) (h_countries_length h)
    (h_pool_offset h) (h_pool_length h) (snd s1) (snd s2) (sig_field s1) (sig_field s2) (h_padding h).

(** Overwriting the file [old] from its start with [new] *)
Definition overwrite (new old : list N) : list N := new ++ skipn (length new) old.

(** writer.c:645-786 loc_writer_write into a file that held [old]: the return
    value, the writer and the file. The versions are 0 (unset) and 1. Where the
    header will be the file keeps its old octets, or zeros past its old end. *)
Definition writer_write (w : writer) (old : list N) (now : N) (version : N) : outcome (Z * writer * list N) :=
  if negb ((version =? 0) || (version =? VERSION_1)) then Ok ((-1)%Z, w, old)
  else
    let magic := MAGIC ++ [VERSION_1] in
    do (w, h, out) <- write_sections w now;
    let gap := firstn (N.to_nat HEADER_SIZE)
                 (skipn (N.to_nat MAGIC_SIZE) old ++ repeat 0 (N.to_nat HEADER_SIZE)) in
    let f := overwrite (magic ++ gap ++ out) old in
    do (r, s1) <- match key1 with
                  | Some k => create_signature k (enc_header h) f (w_sig1 w)
                  | None => Ok (0%Z, w_sig1 w)
                  end;
    let w := with_sigs w s1 (w_sig2 w) in
    if negb (r =? 0)%Z then Ok (r, w, f)
    else
      do (r, s2) <- match key2 with
                    | Some k => create_signature k (enc_header h) f (w_sig2 w)
                    | None => Ok (0%Z, w_sig2 w)
                    end;
      let w := with_sigs w (w_sig1 w) s2 in
      if negb (r =? 0)%Z then Ok (r, w, f)
      else Ok (0%Z, w, overwrite (magic ++ enc_header (sign_header h (w_sig1 w) (w_sig2 w)) ++ out) old).
End Write.
