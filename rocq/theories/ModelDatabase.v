(** Model of src/database.c without the enumerators. The file is mapped read-only,
    so that the memory at db->data is the file as a list of octets. *)
From Coq Require Import NArith ZArith List Bool Arith.
From Verif Require Import Base ModelAddress ModelCountryCode ModelNetwork ModelStringPool ModelObjects ModelFile.
Import ListNotations.
Open Scope N_scope.

(** database.c:50-97 struct loc_database: pointers into the mapping are offsets.
    Signatures and the pool are (offset, length), tables (offset, count). *)
Record db := mkDb {
  d_file : list N;
  d_created_at : N;
  d_vendor : N; d_description : N; d_license : N;
  d_sig1 : N * N; d_sig2 : N * N;
  d_pool : N * N;
  d_as : N * N; d_tree : N * N; d_data : N * N; d_countries : N * N
}.

(** db->length, an off_t *)
Definition flen (f : list N) : N := N.of_nat (length f).

(** database.c:150-167 __loc_database_check_boundaries: the subtraction is done on
    size_t and wraps. *)
Definition check_boundaries (f : list N) (off len : N) : bool :=
  off <=? (flen f + (2 ^ 64 - len)) mod 2 ^ 64.

(** database.c:172-185 loc_database_object *)
Definition object (f : list N) (table : N * N) (len n : N) : option N :=
  let off := fst table + n * len in
  if check_boundaries f off len then Some off else None.

(** database.c:187-198 loc_database_version_supported *)
Definition version_supported (version : N) : bool := version =? VERSION_1.

(** database.c:200-233 loc_database_check_magic; the result is the version. *)
Definition check_magic (f : list N) : outcome N :=
  if flen f <? MAGIC_SIZE then Err 1
  else if cstr_eqb (firstn 7 f) MAGIC then
    if negb (version_supported (nth 7 f 0)) then Err 1 else Ok (nth 7 f 0)
  else Err 1.

(** database.c:286-305 loc_database_read_signature *)
Definition read_signature (off len : N) : outcome (N * N) :=
  if SIG_MAX <? len then Err 1 else Ok (off, len).

(** database.c:276-284 loc_database_map_objects *)
Definition map_objects (size off len : N) : N * N := (off, len / size).

(** database.c:307-385 loc_database_read_header_v1 *)
Definition read_header_v1 (f : list N) : outcome db :=
  if negb (check_boundaries f MAGIC_SIZE HEADER_SIZE) then Err 1
  else
    do h <- rd f MAGIC_SIZE HEADER_SIZE;
    do sig1 <- read_signature (MAGIC_SIZE + 64) (field h 60 2);
    do sig2 <- read_signature (MAGIC_SIZE + 64 + SIG_MAX) (field h 62 2);
    if negb (check_boundaries f (field h 52 4) (field h 56 4)) then Err 1
    else
      Ok (mkDb f (field h 0 8) (field h 8 4) (field h 12 4) (field h 16 4) sig1 sig2
            (field h 52 4, field h 56 4)
            (map_objects AS_SIZE (field h 20 4) (field h 24 4))
            (map_objects NODE_SIZE (field h 36 4) (field h 40 4))
            (map_objects NETWORK_SIZE (field h 28 4) (field h 32 4))
            (map_objects COUNTRY_SIZE (field h 44 4) (field h 48 4))).

(** database.c:424-455 loc_database_open; dup, lseek, mmap and madvise are taken to
    succeed. *)
Definition db_open (f : list N) : outcome db :=
  do version <- check_magic f;
  if version =? VERSION_1 then read_header_v1 f else Err 1.

(** stringpool.c:157-166 loc_stringpool_get on the mapped pool, and reading the C
    string there. Only the offset is checked; the string may run out of the pool
    up to the end of the file. *)
Definition db_string (d : db) (off : N) : outcome (option cstr) :=
  if snd (d_pool d) <=? off then Ok None
  else
    if flen (d_file d) <? fst (d_pool d) + off then UB
    else do s <- scan (skipn (N.to_nat (fst (d_pool d) + off)) (d_file d)); Ok (Some s).

(** database.c:709-723 *)
Definition get_vendor (d : db) : outcome (option cstr) := db_string d (d_vendor d).
Definition get_description (d : db) : outcome (option cstr) := db_string d (d_description d).
Definition get_license (d : db) : outcome (option cstr) := db_string d (d_license d).
Definition count_as (d : db) : N := snd (d_as d).

(** database.c:726-757 loc_database_fetch_as with as.c:114-130
    loc_as_new_from_database_v1 *)
Definition fetch_as (d : db) (pos : N) : outcome as_obj :=
  if snd (d_as d) <=? pos then Err 1
  else match object (d_file d) (d_as d) AS_SIZE pos with
       | None => Err 1
       | Some off =>
           do r <- rd (d_file d) off AS_SIZE;
           do name <- db_string d (field r 4 4);
           Ok (as_set_name (as_new 0 (field r 0 4)) name)
       end.

(** database.c:760-805 loc_database_get_as: the loop, [lo] and [hi] are off_t. *)
Fixpoint get_as_loop (d : db) (number : N) (lo hi : Z) (fuel : nat) : outcome as_obj :=
  if (lo <=? hi)%Z then
    match fuel with
    | O => Fuel
    | S fuel' =>
        let i := ((lo + hi) / 2)%Z in
        do a <- fetch_as d (Z.to_N i);
        if as_number a =? number then Ok a
        else if as_number a <? number then get_as_loop d number (i + 1) hi fuel'
        else get_as_loop d number lo (i - 1) fuel'
    end
  else Err 1.
Definition get_as (d : db) (number : N) : outcome as_obj :=
  get_as_loop d number 0 (Z.of_N (snd (d_as d)) - 1) (N.to_nat (snd (d_as d))).

(** network.c:662-702 loc_network_new_from_database_v1: the pointer to the network
    (None: not created) and the return value. [r] is the record. *)
Definition network_from_database (a : addr) (prefix : N) (r : list N) : option network * Z :=
  let prefix := if v4mapped a then (prefix + (2 ^ 32 - 96)) mod 2 ^ 32 else prefix in
  match network_new a prefix with
  | Ok n =>
      match set_country_code n (Some (cc_str (nth 0 r 0, nth 1 r 0))) with
      | Ok n =>
          let n := set_asn n (field r 4 4) in
          (Some (set_flag n (field r 8 2)), 0%Z)
      | Err c => (Some n, c)
      | _ => (Some n, 1%Z) (* not reached *)
      end
  | Err c => (None, c)
  | _ => (None, 1%Z) (* not reached *)
  end.

(** database.c:808-842 loc_database_fetch_network *)
Definition fetch_network (d : db) (a : addr) (prefix pos : N) : outcome (option network * Z) :=
  if snd (d_data d) <=? pos then Ok (None, 1%Z)
  else match object (d_file d) (d_data d) NETWORK_SIZE pos with
       | None => Ok (None, 1%Z)
       | Some off =>
           do r <- rd (d_file d) off NETWORK_SIZE;
           Ok (network_from_database a prefix r)
       end.

(** A node record: zero, one, network *)
Definition dec_node (r : list N) : node_rec := (field r 0 4, field r 4 4, field r 8 4).

(** database.c:885-888: the node at an index; [None]: NULL *)
Definition fetch_node (d : db) (i : N) : outcome (option node_rec) :=
  match object (d_file d) (d_tree d) NODE_SIZE i with
  | None => Ok None
  | Some off => do r <- rd (d_file d) off NODE_SIZE; Ok (Some (dec_node r))
  end.

(** database.c:844-846 __loc_database_node_is_leaf *)
Definition is_leaf (r : node_rec) : bool := negb (snd r =? NO_NETWORK).

(** database.c:848-874 __loc_database_lookup_handle_leaf *)
Definition handle_leaf (d : db) (a : addr) (na : addr) (level : N) (r : node_rec) : outcome (option network * Z) :=
  do (n, c) <- fetch_network d na level (snd r);
  if negb (c =? 0)%Z then Ok (n, c)
  else match n with
       | None => UB (* not reached *)
       | Some n => if network_matches_address n a then Ok (Some n, 0%Z) else Ok (None, 1%Z)
       end.

Section Lookup.
(** loc_address_get_bit(a, i) for i >= 128 reads behind the address, and
    loc_address_set_bit writes there. [beyond i = None]: undefined behaviour;
    [beyond i = Some b]: the bit that is found there, the write being harmless. *)
Variable beyond : nat -> option N.

Definition get_bit (a : addr) (i : nat) : outcome N :=
  if (i <? 128)%nat then Ok (addr_get_bit a i)
  else match beyond i with Some b => Ok b | None => UB end.
Definition set_bit (a : addr) (i : nat) (b : N) : outcome addr :=
  if (i <? 128)%nat then Ok (addr_set_bit a i b)
  else match beyond i with Some _ => Ok a | None => UB end.

(** database.c:877-933 __loc_database_lookup: *network, the address built so far
    (shared by all levels) and the return value. *)
Fixpoint lookup_loop (d : db) (a na : addr) (index : N) (level : nat) (fuel : nat)
  : outcome (option network * addr * Z) :=
  match fuel with
  | O => Fuel
  | S fuel' =>
      do node <- fetch_node d index;
      match node with
      | None => Ok (None, na, 1%Z)
      | Some node =>
          do bit <- get_bit a level;
          do na <- set_bit na level bit;
          let index := if bit =? 0 then fst (fst node) else snd (fst node) in
          let leaf (n : option network) (na : addr) :=
            if is_leaf node then
              do (n, r) <- handle_leaf d a na (N.of_nat level) node;
              if (r <? 0)%Z then Ok (n, na, r) else Ok (n, na, 0%Z)
            else Ok (n, na, 0%Z) in
          if 0 <? index then
            if snd (d_tree d) <=? index then Ok (None, na, 1%Z)
            else
              do (n, na, r) <- lookup_loop d a na index (S level) fuel';
              if (r =? 0)%Z then Ok (n, na, r)
              else if (r <? 0)%Z then Ok (n, na, r)
              else leaf n na
          else leaf None na
      end
  end.

(** database.c:935-958 loc_database_lookup *)
Definition lookup (d : db) (a : addr) (fuel : nat) : outcome (option network * Z) :=
  do (n, _, r) <- lookup_loop d a (repeat 0 16) 0 0 fuel;
  Ok (n, r).
End Lookup.

(** country.c:144-173 loc_country_new_from_database_v1; [r] is the record. *)
Definition country_from_database (d : db) (r : list N) : outcome country :=
  do c <- country_new 0 (Some (cc_str (nth 0 r 0, nth 1 r 0)));
  let c := if nth 2 r 0 =? 0 then c
           else mkCountry (c_id c) (c_code c) (nth 2 r 0, nth 3 r 0) (c_name c) in
  do name <- db_string d (field r 4 4);
  match name with
  | None => Ok c
  | Some _ => country_set_name c name
  end.

(** database.c:972-1005 loc_database_fetch_country *)
Definition fetch_country (d : db) (pos : N) : outcome country :=
  if snd (d_countries d) <=? pos then Err 1
  else match object (d_file d) (d_countries d) COUNTRY_SIZE pos with
       | None => Err 1
       | Some off =>
           do r <- rd (d_file d) off COUNTRY_SIZE;
           country_from_database d r
       end.

(** strcmp on C strings, as a sign *)
Fixpoint strcmp (a b : cstr) : Z :=
  match a, b with
  | [], [] => 0
  | [], _ :: _ => -1
  | _ :: _, [] => 1
  | x :: a', y :: b' => if x <? y then -1 else if y <? x then 1 else strcmp a' b'
  end.

(** database.c:1024-1056, the loop of loc_database_get_country *)
Fixpoint get_country_loop (d : db) (code : cstr) (lo hi : Z) (fuel : nat) : outcome (option country) :=
  if (lo <=? hi)%Z then
    match fuel with
    | O => Fuel
    | S fuel' =>
        let i := ((lo + hi) / 2)%Z in
        do c <- fetch_country d (Z.to_N i);
        let result := strcmp code (cc_str (c_code c)) in
        if (result =? 0)%Z then Ok (Some c)
        else if (0 <? result)%Z then get_country_loop d code (i + 1) hi fuel'
        else get_country_loop d code lo (i - 1) fuel'
    end
  else Ok None.
(** database.c:1008-1062 loc_database_get_country; [None]: NULL and return value 0 *)
Definition get_country (d : db) (code : option cstr) : outcome (option country) :=
  if negb (cc_is_valid code) then Err 1
  else match code with
       | None => UB (* not reached: NULL is not valid *)
       | Some code => get_country_loop d code 0 (Z.of_N (snd (d_countries d)) - 1) (N.to_nat (snd (d_countries d)))
       end.
