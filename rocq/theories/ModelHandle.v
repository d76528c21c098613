(** Model of what loc_database_new and loc_database_unref (src/database.c:236-274, 399-530) take from the system and give back: descriptors, FILE objects, mappings, blocks of
    memory and references of the context. The system answers the calls as [answers] says; fread gives the octets of the file. What is in the file is
    that of ModelDatabase. *)
From Coq Require Import NArith ZArith List Bool Arith.
From Verif Require Import Base ModelFile ModelDatabase.
Import ListNotations.
Open Scope nat_scope.

Record res := mkRes { r_fds : list nat; r_streams : nat; r_maps : nat; r_blocks : nat; r_ctx : nat }.
(** The answers: whether the calls work; dup returns a descriptor or -1 *)
Record answers := mkAnswers { o_calloc : bool; o_dup : option nat; o_fdopen : bool; o_lseek : bool; o_mmap : bool; o_madvise : bool; o_pool : bool }.
(** What an object of the database has: f with its descriptor, data, pool; NULL if not *)
Record handle := mkHandle { h_f : option nat; h_data : bool; h_pool : bool }.
Definition handle0 : handle := mkHandle None false false.

(** 399-422 loc_database_clone_handle *)
Definition clone_handle (o : answers) (h : handle) (s : res) : Z * handle * res :=
  match o_dup o with
  | None => (1%Z, h, s) (* -1 is not 0; fdopen fails *)
  | Some fd =>
      let s := mkRes (fd :: r_fds s) (r_streams s) (r_maps s) (r_blocks s) (r_ctx s) in
      if fd =? 0 then (1%Z, h, s)
      else if o_fdopen o then (0%Z, mkHandle (Some fd) (h_data h) (h_pool h), mkRes (r_fds s) (S (r_streams s)) (r_maps s) (r_blocks s) (r_ctx s))
      else (1%Z, h, s)
  end.
(** 238-274 loc_database_mmap *)
Definition map_database (o : answers) (h : handle) (s : res) : Z * handle * res :=
  if negb (o_lseek o) then (1%Z, h, s)
  else if negb (o_mmap o) then (1%Z, h, s)
  else
    let h := mkHandle (h_f h) true (h_pool h) in
    let s := mkRes (r_fds s) (r_streams s) (S (r_maps s)) (r_blocks s) (r_ctx s) in
    if negb (o_madvise o) then ((-1)%Z, h, s) else (0%Z, h, s).
(** 307-397 loc_database_read_header: in version 1 all checks are before the pool is opened (stringpool.c:104-140) *)
Definition read_header (o : answers) (f : list N) (h : handle) (s : res) : outcome (Z * handle * res * option db) :=
  match db_open f with
  | Err _ => Ok (1%Z, h, s, None)
  | Ok d => if o_pool o then Ok (0%Z, mkHandle (h_f h) (h_data h) true, mkRes (r_fds s) (r_streams s) (r_maps s) (S (r_blocks s)) (S (r_ctx s)), Some d)
            else Ok (1%Z, h, s, None)
  | UB => UB
  | Fuel => Fuel
  end.
(** 424-455 loc_database_open *)
Definition open_database (o : answers) (f : list N) (h : handle) (s : res) : outcome (Z * handle * res * option db) :=
  let '(r, h, s) := clone_handle o h s in
  if negb (r =? 0)%Z then Ok (r, h, s, None)
  else
    match check_magic f with
    | Err _ => Ok (1%Z, h, s, None)
    | Ok _ =>
        let '(r, h, s) := map_database o h s in
        if negb (r =? 0)%Z then Ok (r, h, s, None)
        else read_header o f h s
    | UB => UB
    | Fuel => Fuel
    end.
(** 457-479 loc_database_free *)
Definition free_database (h : handle) (s : res) : res :=
  let s := if h_data h then mkRes (r_fds s) (r_streams s) (pred (r_maps s)) (r_blocks s) (r_ctx s) else s in
  let s := if h_pool h then mkRes (r_fds s) (r_streams s) (r_maps s) (pred (r_blocks s)) (pred (r_ctx s)) else s in
  let s := match h_f h with
           | Some fd => mkRes (remove Nat.eq_dec fd (r_fds s)) (pred (r_streams s)) (r_maps s) (r_blocks s) (r_ctx s)
           | None => s
           end in
  mkRes (r_fds s) (r_streams s) (r_maps s) (pred (r_blocks s)) (pred (r_ctx s)).
(** 481-517 loc_database_new *)
Definition database_new (o : answers) (f : list N) (s : res) : outcome (Z * res * option (handle * db)) :=
  if negb (o_calloc o) then Ok (1%Z, s, None)
  else
    let s := mkRes (r_fds s) (r_streams s) (r_maps s) (S (r_blocks s)) (S (r_ctx s)) in
    do (r, h, s, d) <- open_database o f handle0 s;
    match d with
    | Some d => if (r =? 0)%Z then Ok (0%Z, s, Some (h, d)) else Ok (r, free_database h s, None)
    | None => Ok (r, free_database h s, None)
    end.

(** What a program does: it opens databases, and drops the i-th of those that are open *)
Inductive dbact := OpenDb (o : answers) (f : list N) | CloseDb (i : nat).
Fixpoint take_nth {A} (i : nat) (l : list A) : option (A * list A) :=
  match l, i with
  | [], _ => None
  | x :: l', O => Some (x, l')
  | x :: l', S i' => match take_nth i' l' with Some (y, r) => Some (y, x :: r) | None => None end
  end.
Definition dbstep (s : res) (live : list (handle * db)) (a : dbact) : outcome (res * list (handle * db)) :=
  match a with
  | OpenDb o f => do (r, s, x) <- database_new o f s; Ok (s, match x with Some x => x :: live | None => live end)
  | CloseDb i => match take_nth i live with
                 | Some (x, live) => Ok (free_database (fst x) s, live)
                 | None => Ok (s, live)
                 end
  end.
Fixpoint dbsteps (s : res) (live : list (handle * db)) (l : list dbact) : outcome (res * list (handle * db)) :=
  match l with
  | [] => Ok (s, live)
  | a :: l' => do (s, live) <- dbstep s live a; dbsteps s live l'
  end.
