(** Model of what happens when memory runs out while objects are made: loc_writer_new and loc_writer_unref of a writer
    without content (src/writer.c:71-195), loc_network_tree_new (src/network-tree.c:46-64, 162-177, 272-316),
    loc_network_tree_get_path and loc_network_tree_add_network (src/network-tree.c:70-111, 198-222), loc_database_enumerator_new
    (src/database.c:1066-1142) and the pool of strings (src/stringpool.c:46-101). Objects are counted, their content is not modelled
    here. Octets of strings are counted only. *)
From Coq Require Import NArith ZArith List Bool Arith.
From Verif Require Import Base.
Import ListNotations.
Open Scope nat_scope.

(** Blocks that are allocated, references of the context, references of the database, calls of malloc and its like *)
Record mem := mkMem { m_blocks : nat; m_ctx : nat; m_db : nat; m_calls : nat }.

Section Memory.
(** Whether the n-th call of calloc or realloc works *)
Variable ok : nat -> bool.

Definition alloc (m : mem) : bool * mem :=
  if ok (m_calls m) then (true, mkMem (S (m_blocks m)) (m_ctx m) (m_db m) (S (m_calls m)))
  else (false, mkMem (m_blocks m) (m_ctx m) (m_db m) (S (m_calls m))).
(** Objects with a reference of the context: loc_stringpool_new, loc_as_list_new, loc_country_list_new, loc_network_list_new,
    loc_network_tree_node_new *)
Definition object_new (m : mem) : bool * mem :=
  let (r, m) := alloc m in
  (r, if r then mkMem (m_blocks m) (S (m_ctx m)) (m_db m) (m_calls m) else m).
Definition object_free (m : mem) : mem := mkMem (pred (m_blocks m)) (pred (m_ctx m)) (m_db m) (m_calls m).
Definition block_free (m : mem) : mem := mkMem (pred (m_blocks m)) (m_ctx m) (m_db m) (m_calls m).

(** network-tree.c:162-177: root is dereferenced *)
Definition tree_free (root : bool) (m : mem) : outcome mem :=
  if root then Ok (object_free (object_free m)) else UB.
(** network-tree.c:46-64 loc_network_tree_new *)
Definition tree_new (m : mem) : outcome (bool * mem) :=
  let (r, m) := object_new m in
  if negb r then Ok (false, m)
  else
    let (r, m) := object_new m in
    if r then Ok (true, m) else do m <- tree_free false m; Ok (false, m).

(** The members of a writer that are not NULL; whether the pool has memory *)
Record wmembers := mkW { w_pool : bool; w_blocks : bool; w_tree : bool; w_as : bool; w_countries : bool; w_key1 : bool; w_key2 : bool }.
(** writer.c:159-186 loc_writer_free *)
Definition writer_free (w : wmembers) (m : mem) : outcome mem :=
  let m := if w_key1 w then block_free m else m in
  let m := if w_key2 w then block_free m else m in
  let m := if w_as w then object_free m else m in
  let m := if w_countries w then object_free m else m in
  do m <- (if w_tree w then tree_free true m else Ok m);
  let m := if w_pool w then object_free (if w_blocks w then block_free m else m) else m in
  Ok (object_free m).
(** writer.c:71-89 parse_private_key: a key counts as one block; [None]: the file has no key *)
Definition parse_key (k : bool) (m : mem) : bool * mem := if k then alloc m else (false, m).
(** writer.c:91-151 loc_writer_new; [k1], [k2]: no file, or whether it has a key *)
Definition writer_new (k1 k2 : option bool) (m : mem) : outcome (option wmembers * mem) :=
  let fail w m := do m <- writer_free w m; Ok (None, m) in
  let (r, m) := object_new m in
  if negb r then Ok (None, m) else
  let (r, m) := object_new m in
  if negb r then fail (mkW false false false false false false false) m else
  let (r, m) := alloc m in
  if negb r then fail (mkW true false false false false false false) m else
  do x <- tree_new m;
  let (r, m) := x : bool * mem in
  if negb r then fail (mkW true true false false false false false) m else
  let (r, m) := object_new m in
  if negb r then fail (mkW true true true false false false false) m else
  let (r, m) := object_new m in
  if negb r then fail (mkW true true true true false false false) m else
  let (r, m) := match k1 with Some k => parse_key k m | None => (true, m) end in
  if negb r then fail (mkW true true true true true false false) m else
  let key1 := match k1 with Some _ => true | None => false end in
  let (r, m) := match k2 with Some k => parse_key k m | None => (true, m) end in
  if negb r then fail (mkW true true true true true key1 false) m else
  Ok (Some (mkW true true true true true key1 match k2 with Some _ => true | None => false end), m).

(** database.c:1066-1094 loc_database_enumerator_free of an enumerator without filters *)
Definition enumerator_free (visited stack : bool) (m : mem) : mem :=
  let m := mkMem (m_blocks m) (m_ctx m) (pred (m_db m)) (m_calls m) in
  let m := if visited then block_free m else m in
  let m := if stack then object_free m else m in
  object_free m.
(** database.c:1096-1142 loc_database_enumerator_new *)
Definition enumerator_new (m : mem) : bool * mem :=
  let (r, m) := object_new m in
  if negb r then (false, m)
  else
    let m := mkMem (m_blocks m) (m_ctx m) (S (m_db m)) (m_calls m) in
    let (r, m) := alloc m in
    if negb r then (false, enumerator_free false false m)
    else
      let (r, m) := object_new m in
      if negb r then (false, enumerator_free true false m) else (true, m).

(** ** The tree *)
Inductive node := Node (zero one : option node).
Fixpoint nodes (t : node) : nat :=
  match t with
  | Node z o => S ((match z with Some z => nodes z | None => 0 end) + (match o with Some o => nodes o | None => 0 end))
  end.
Definition child (b : bool) (t : node) : option node := match t with Node z o => if b then o else z end.
Definition with_child (b : bool) (t c : node) : node := match t with Node z o => if b then Node z (Some c) else Node (Some c) o end.
(** 70-111 loc_network_tree_get_path with loc_network_tree_get_node: whether there is a node, and the tree. If a node could
    not be made the loop goes on with NULL, unless it was the last bit. *)
Fixpoint get_path (t : node) (path : list bool) (m : mem) {struct path} : outcome (bool * node * mem) :=
  match path with
  | [] => Ok (true, t, m)
  | b :: path' =>
      match child b t with
      | Some c => do (r, c, m) <- get_path c path' m; Ok (r, with_child b t c, m)
      | None =>
          let (r, m) := object_new m in
          if r then do (r, c, m) <- get_path (Node None None) path' m; Ok (r, with_child b t c, m)
          else match path' with [] => Ok (false, t, m) | _ => UB end
      end
  end.

(** ** The pool of strings: whether blocks is not NULL, size and length *)
Record spool := mkSpool { p_blocks : bool; p_size : N; p_length : N }.
Definition POOL_BLOCK : N := 524288.
(** stringpool.c:46-62 loc_stringpool_grow: realloc of a block gives a block for it; if it fails the old one remains, but blocks is NULL *)
Definition pool_grow (p : spool) (m : mem) : bool * spool * mem :=
  let size := (p_size p + POOL_BLOCK)%N in
  if p_blocks p then
    let m' := mkMem (m_blocks m) (m_ctx m) (m_db m) (S (m_calls m)) in
    if ok (m_calls m) then (true, mkSpool true size (p_length p), m') else (false, mkSpool false size (p_length p), m')
  else
    let (r, m) := alloc m in (r, mkSpool r size (p_length p), m).
(** stringpool.c:64-91 loc_stringpool_append of a string with [n] octets, its zero among them *)
Definition pool_append (n : N) (p : spool) (m : mem) : outcome (bool * spool * mem) :=
  let '(r, p, m) := if (p_size p <? p_length p + n)%N then pool_grow p m else (true, p, m) in
  if negb r then Ok (false, p, m)
  else if negb (p_blocks p) || (p_size p <? p_length p + n)%N then UB
  else Ok (true, mkSpool (p_blocks p) (p_size p) (p_length p + n)%N, m).
Fixpoint pool_appends (l : list N) (p : spool) (m : mem) : outcome (list bool * spool * mem) :=
  match l with
  | [] => Ok ([], p, m)
  | n :: l' => do (r, p, m) <- pool_append n p m; do (rs, p, m) <- pool_appends l' p m; Ok (r :: rs, p, m)
  end.
(** stringpool.c:93-102 loc_stringpool_free *)
Definition pool_free (p : spool) (m : mem) : mem := object_free (if p_blocks p then block_free m else m).
End Memory.
