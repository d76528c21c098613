(** Model of the objects of the Python and Lua bindings and of the references they have to
    objects of the library: src/python/*.c, src/lua/*.c, on top of ModelRef. Object 0 is
    the context, to which the module has a reference. The values of the objects, which other files
    model, are left out, and so are the nodes of the tree of a writer (it holds networks). *)
From Coq Require Import NArith ZArith List Bool Arith.
From Verif Require Import Base ModelRef.
Import ListNotations.
Open Scope nat_scope.

Inductive kind := Network | As | Country | Database | Enumerator | Writer.
(** An object of Python: its type and its pointer, where None is NULL *)
Record pyobj := mkObj { o_kind : kind; o_ptr : option nat }.
(** The objects of the library, those of Python (None: released), the reference count of
    None minus the references to it that there are, and streams that nobody will close *)
Record pystate := mkState { st_c : rstate; st_objs : list (option pyobj); st_none : Z; st_streams : nat }.
(** How deep objects are nested at most *)
Definition depth : nat := 4.

(** ** Functions of the library: see ModelRef *)
(** writer.c:91-147 loc_writer_new: the string pool, the tree and the lists are the objects
    that follow [w]; they are released in the order of the slots. *)
Definition w_pool_of (w : nat) : nat := w + 1.
Definition w_tree_of (w : nat) : nat := w + 2.
Definition w_ases_of (w : nat) : nat := w + 3.
Definition w_countries_of (w : nat) : nat := w + 4.
Definition writer_new (w c : nat) : list rop :=
  object_new w c ++ object_new (w_pool_of w) c ++ [Give w (w_pool_of w) 0] ++ object_new (w_tree_of w) c ++ [Give w (w_tree_of w) 0] ++
  object_new (w_ases_of w) c ++ [Give w (w_ases_of w) 0] ++ object_new (w_countries_of w) c ++ [Give w (w_countries_of w) 1].
(** database.c:1096-1142 loc_database_enumerator_new; db->ctx is the context *)
Definition py_enumerator_new (e db c : nat) : list rop :=
  object_new e c ++ [Ref db; Give e db 0] ++ object_new (S e) c ++ [Give e (S e) 2].
(** X_new in the constructors; the first object is the one that is asked for *)
Definition construct (k : kind) (n : nat) : list rop :=
  match k with
  | Network | As | Country => object_new n 0
  | Database => database_new n (S n) 0
  | Writer => writer_new n 0
  | Enumerator => []
  end.
(** python/network.c:48-55 new_network, as.c:25-32, country.c:25-32, database.c:235-242
    new_database_enumerator, and in the same form lua/network.c:43-54, as.c:43-54, country.c:43-54; then
    the caller drops their reference *)
Definition wrap (n : nat) : list rop := [Ref n; Unref n].
(** python/database.c:328-362, 369-410 in Database_search_networks: the list [l] and its elements,
    which are appended or are equal to one that is on the list *)
Fixpoint list_items (l n : nat) (items : list bool) : list rop :=
  match items with
  | [] => []
  | pushed :: items' => object_new n 0 ++ (if pushed : bool then list_push l n 0 else []) ++ [Unref n] ++ list_items l (S n) items'
  end.
(** ... which is given to the enumerator *)
Definition search_list (e l : nat) (items : list bool) : list rop := object_new l 0 ++ list_items l (S l) items ++ [Ref l; Give e l 0; Unref l].
(** ... or one of the elements is not of the type, or no country code: the list is released *)
Definition search_failed (l : nat) (items : list bool) : list rop := object_new l 0 ++ list_items l (S l) items ++ [Unref l].
(** network.c:461-485 loc_network_exclude with [k] networks, and python/network.c:28-46
    PyList_FromNetworkList *)
Fixpoint exclude_push (l n k : nat) : list rop :=
  match k with O => [] | S k' => object_new n 0 ++ list_push l n 0 ++ [Unref n] ++ exclude_push l (S n) k' end.
Fixpoint exclude_pop (l n k : nat) : list rop :=
  match k with O => [] | S k' => Take l 0 :: wrap (n + k') ++ exclude_pop l n k' end.
Definition exclude (l k : nat) : list rop := object_new l 0 ++ exclude_push l (S l) k ++ exclude_pop l (S l) k ++ [Unref l].

(** ** Statements of a program. Objects are named by their number. *)
(** What makes search_networks fail: nothing, an element of country_codes or of asns *)
Inductive failure := Fine | In_codes | In_asns.
Inductive stmt :=
| Create (k : kind) (ok : bool)         (* X(...), which may raise an exception *)
| Create_writer (nones keys : nat)      (* Writer(...), with so many arguments that are None, and private keys *)
| Bare (k : kind)                       (* X.__new__(X), DatabaseEnumerator() *)
| Again (o : nat)                       (* o.__init__(...) *)
| Made (k : kind)                       (* Lua: Network.new, AS.new, Country.new *)
| Result (o : nat) (k : kind)           (* db.lookup, get_as, get_country, next(enumerator), which return an object *)
| Add (o : nat) (k : kind) (pushed : bool) (* writer.add_network, add_as, add_country *)
| Add_busy (o : nat)                    (* writer.add_network for a network that exists *)
| Iterate (o : nat)                     (* db.ases, networks, networks_flattened, countries, list_bogons, search_as *)
| Listed (o : nat)                      (* Lua: db:list_networks *)
| Search (o : nat) (codes asns : option (list bool)) (f : failure)
| Exclude (o other k : nat)
| Verify (o : nat)
| Use (o : nat)                         (* any other method or attribute *)
| Gc (o : nat)                          (* Lua: o:__gc() *)
| Delete (o : nat).                     (* the last reference to o is dropped *)

Definition object (st : pystate) (o : nat) : outcome pyobj :=
  match nth_error (st_objs st) o with Some (Some x) => Ok x | _ => Err 0 end.
(** The object of the library: reading it, or NULL, is what every method does first. *)
Definition pointer (st : pystate) (o : nat) (k : kind -> bool) : outcome nat :=
  do x <- object st o;
  if k (o_kind x) then match o_ptr x with None => UB | Some p => do c <- access (rs_heap (st_c st)) p; Ok p end
  else Err 0.
Definition fresh (st : pystate) : nat := length (rs_heap (st_c st)).
(** Operations on the objects of the library, then new objects of Python *)
Definition perform (st : pystate) (os : list rop) (new : list pyobj) : outcome pystate :=
  do c <- do_ops depth (st_c st) os;
  Ok (mkState c (st_objs st ++ map Some new) (st_none st) (st_streams st)).
Definition set_ptr (st : pystate) (o : nat) (x : option pyobj) : pystate := mkState (st_c st) (upd (st_objs st) o x) (st_none st) (st_streams st).

Definition is_writer (k : kind) : bool := match k with Writer => true | _ => false end.
Definition is_database (k : kind) : bool := match k with Database => true | _ => false end.
Definition is_network (k : kind) : bool := match k with Network => true | _ => false end.
Definition is_source (k : kind) : bool := match k with Database | Enumerator => true | _ => false end.
Definition is_any (_ : kind) : bool := true.
Definition is_plain (k : kind) : bool := match k with Network | As | Country => true | _ => false end.

(** writer.c:241-275 loc_writer_add_as, loc_writer_add_network, loc_writer_add_country: where it is put *)
Definition place (w : nat) (k : kind) : nat := match k with As => w_ases_of w | Country => w_countries_of w | _ => w_tree_of w end.
Definition search_ops (e d : nat) (codes asns : option (list bool)) (f : failure) : list rop :=
  let l1 := e + 2 in
  let l2 := match codes with Some c => l1 + S (length c) | None => l1 end in
  py_enumerator_new e d 0 ++
  match f, codes, asns with
  | In_codes, Some c, _ => search_failed l1 c
  | In_asns, Some c, Some a => search_list e l1 c ++ search_failed l2 a
  | In_asns, None, Some a => search_failed l1 a
  | _, _, _ => match codes with Some c => search_list e l1 c | None => [] end ++
               match asns with Some a => search_list e l2 a | None => [] end ++ wrap e
  end.
Definition search_fails (codes asns : option (list bool)) (f : failure) : bool :=
  match f, codes, asns with In_codes, Some _, _ | In_asns, _, Some _ => true | _, _, _ => false end.

Definition py_stmt (st : pystate) (s : stmt) : outcome pystate :=
  let n := fresh st in
  match s with
  (* database.c:30-78, network.c:57-83, as.c:35-59, country.c:35-59; what fails is released
     with the pointer that is NULL *)
  | Create k ok =>
      match k with
      | Enumerator | Writer => Err 0
      | _ => if ok then perform st (construct k n) [mkObj k (Some n)] else Ok st
      end
  (* writer.c:28-90 Writer_init: the references to None are those of the caller; fdopen *)
  | Create_writer nones keys =>
      do st <- perform st (construct Writer n) [mkObj Writer (Some n)];
      Ok (mkState (st_c st) (st_objs st) (st_none st - Z.of_nat nones) (st_streams st + keys))
  | Bare k => perform st [] [mkObj k None]
  | Again o =>
      do x <- object st o;
      match o_kind x with
      | Enumerator => Err 0
      | k => do st <- perform st (construct k n) []; Ok (set_ptr st o (Some (mkObj k (Some n))))
      end
  (* lua/network.c:56-74, as.c:56-74, country.c:56-74 *)
  | Made k => if is_plain k then perform st (object_new n 0 ++ wrap n) [mkObj k (Some n)] else Err 0
  (* database.c:142-233 and 604-657, lua/database.c:135-206 and 256-278 *)
  | Result o k =>
      if is_plain k then do p <- pointer st o is_source; perform st (object_new n 0 ++ wrap n) [mkObj k (Some n)] else Err 0
  (* writer.c:148-219 *)
  | Add o k pushed =>
      if is_plain k then
        do w <- pointer st o is_writer;
        perform st (object_new n 0 ++ (if pushed then list_push (place w k) n 0 else []) ++ wrap n) [mkObj k (Some n)]
      else Err 0
  | Add_busy o => do w <- pointer st o is_writer; perform st (object_new n 0) []
  (* database.c:244-298, 457-470 *)
  | Iterate o => do d <- pointer st o is_database; perform st (py_enumerator_new n d 0 ++ wrap n) [mkObj Enumerator (Some n)]
  (* lua/database.c:280-300 *)
  | Listed o => do d <- pointer st o is_database; perform st (py_enumerator_new n d 0) [mkObj Enumerator (Some n)]
  (* database.c:300-455 *)
  | Search o codes asns f =>
      do d <- pointer st o is_database;
      perform st (search_ops n d codes asns f) (if search_fails codes asns f then [] else [mkObj Enumerator (Some n)])
  (* network.c:180-193 *)
  | Exclude o other k =>
      do p <- pointer st o is_network; do q <- pointer st other is_network;
      perform st (exclude n k) (map (fun i => mkObj Network (Some (S n + i))) (rev (seq 0 k)))
  (* database.c:84-110 Database_verify: fdopen without fclose *)
  | Verify o => do d <- pointer st o is_database; Ok (mkState (st_c st) (st_objs st) (st_none st) (S (st_streams st)))
  | Use o => do p <- pointer st o is_any; Ok st
  (* lua/database.c:79-89 Database_gc and the same in the other files *)
  | Gc o =>
      do x <- object st o;
      match o_ptr x with
      | Some p => do st <- perform st [Unref p] []; Ok (set_ptr st o (Some (mkObj (o_kind x) None)))
      | None => Ok st
      end
  (* database.c:36-44 Database_dealloc and the same in the other files; loc_database_enumerator_unref
     accepts NULL *)
  | Delete o =>
      do x <- object st o;
      do st <- perform st (match o_ptr x with Some p => [Unref p] | None => [] end) [];
      Ok (set_ptr st o None)
  end.
Fixpoint py_run (st : pystate) (l : list stmt) : outcome pystate :=
  match l with [] => Ok st | s :: l' => do st <- py_stmt st s; py_run st l' end.
(** locationmodule.c:110-113 PyInit__location: loc_new *)
Definition imported : pystate := mkState (mkRS [mkCell 1 [] 0] [0]) [] 0 0.
(** locationmodule.c:35-39 location_free *)
Definition unload (st : pystate) : outcome pystate := perform st [Unref 0] [].
