(** Model of src/libloc/format.h: the layout of a database file. Integers are big
    endian. The offsets follow from the C struct layout: 32-bit members are
    aligned to four octets, 16-bit members to two. *)
From Coq Require Import NArith ZArith List Bool Arith.
From Verif Require Import Base ModelCountryCode ModelNetwork.
Import ListNotations.
Open Scope N_scope.

(** format.h:22 LOC_DATABASE_MAGIC "LOCDBXX" *)
Definition MAGIC : list N := [76; 79; 67; 68; 66; 88; 88].
(** format.h:25-28 enum loc_database_version *)
Definition VERSION_1 : N := 1.
(** format.h:36-37 *)
Definition PAGE_SIZE : N := 4096.
Definition SIG_MAX : N := 2048.
(** sizeof of the structs *)
Definition MAGIC_SIZE : N := 8.
Definition HEADER_SIZE : N := 4192.
Definition NODE_SIZE : N := 12.
Definition NETWORK_SIZE : N := 12.
Definition AS_SIZE : N := 8.
Definition COUNTRY_SIZE : N := 8.

(** format.h:46-87 struct loc_database_header_v1 *)
Record header := mkHeader {
  h_created_at : N;
  h_vendor : N; h_description : N; h_license : N;
  h_as_offset : N; h_as_length : N;
  h_data_offset : N; h_data_length : N;
  h_tree_offset : N; h_tree_length : N;
  h_countries_offset : N; h_countries_length : N;
  h_pool_offset : N; h_pool_length : N;
  h_sig1_length : N; h_sig2_length : N;
  h_sig1 : list N; h_sig2 : list N;      (* SIG_MAX octets each *)
  h_padding : list N                     (* 32 octets *)
}.

Definition enc_header (h : header) : list N :=
  to_be 8 (h_created_at h) ++
  to_be 4 (h_vendor h) ++ to_be 4 (h_description h) ++ to_be 4 (h_license h) ++
  to_be 4 (h_as_offset h) ++ to_be 4 (h_as_length h) ++
  to_be 4 (h_data_offset h) ++ to_be 4 (h_data_length h) ++
  to_be 4 (h_tree_offset h) ++ to_be 4 (h_tree_length h) ++
  to_be 4 (h_countries_offset h) ++ to_be 4 (h_countries_length h) ++
  to_be 4 (h_pool_offset h) ++ to_be 4 (h_pool_length h) ++
  to_be 2 (h_sig1_length h) ++ to_be 2 (h_sig2_length h) ++
  h_sig1 h ++ h_sig2 h ++ h_padding h.

(** format.h:89-94 struct loc_database_network_node_v1: zero, one, network *)
Definition node_rec := (N * N * N)%type.
Definition enc_node (r : node_rec) : list N :=
  let '(zero, one, network) := r in to_be 4 zero ++ to_be 4 one ++ to_be 4 network.
(** The index stored for "no network" *)
Definition NO_NETWORK : N := 0xffffffff.

(** format.h:96-110 struct loc_database_network_v1: country code, two octets the
    compiler inserts, ASN, flags, two octets of padding. network.c:649-660
    loc_network_to_database_v1 does not set the inserted octets and the padding;
    they are whatever was there ([hole]). *)
Definition enc_network (hole : N * N * (N * N)) (n : network) : list N :=
  let '(h1, h2, (h3, h4)) := hole in
  [fst (n_cc n); snd (n_cc n); h1; h2] ++ to_be 4 (n_asn n) ++ to_be 2 (n_flags n) ++ [h3; h4].

(** format.h:112-118 struct loc_database_as_v1: number, name *)
Definition enc_as (number name : N) : list N := to_be 4 number ++ to_be 4 name.

(** format.h:120-126 struct loc_database_country_v1: code, continent code, name *)
Definition enc_country (code continent : cc2) (name : N) : list N :=
  [fst code; snd code; fst continent; snd continent] ++ to_be 4 name.

(** Reading [len] octets of memory holding [f] at offset [off]. *)
Definition rd (f : list N) (off len : N) : outcome (list N) :=
  if off + len <=? N.of_nat (length f) then Ok (firstn (N.to_nat len) (skipn (N.to_nat off) f))
  else UB.

(** be64toh, be32toh, be16toh of a member of a struct that was read *)
Definition field (l : list N) (off len : nat) : N := be (firstn len (skipn off l)).
