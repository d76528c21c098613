(** Model of the tasks that fetch geofeeds, and of the connections they use:
    src/scripts/location-importer.in:1824-1860 and src/python/location/database.py:46-83,
    with asyncio.TaskGroup, asyncio.Semaphore and psycopg_pool.ConnectionPool.

    A task runs until it waits: at the semaphore, then for the answer of the server (nothing is
    written before it). What it does with the answer is done without waiting, so statements of
    tasks do not mix; the transaction has the time at which it began. When a task raises an
    exception the others are cancelled, but some may get their turn before that. The callback
    that gives a connection back is called some time after the end of the task. *)
From Coq Require Import String.
From Coq Require Import NArith ZArith List Bool Arith.
From Verif Require Import Base ModelCountryCode ModelStringPool SpecText ModelImport ModelGeofeed.
Import ListNotations.
Open Scope N_scope.

(** Tasks are named by the feed they fetch; the main task is None. *)
Definition task := option N.
Definition task_eqb (a b : task) : bool :=
  match a, b with Some x, Some y => x =? y | None, None => true | _, _ => false end.

(** database.py:16-34: connections given to tasks, those that nobody uses, and how many have
    been opened ever (their names) *)
Record pool := mkPool { po_used : list (task * N); po_idle : list N; po_opened : N }.
Definition max_size : nat := 512.
Definition find_connection (p : pool) (t : task) : option N :=
  option_map snd (find (fun x => task_eqb (fst x) t) (po_used p)).
(** database.py:46-71 connection; None is PoolTimeout *)
Definition connection (p : pool) (t : task) : option (N * pool) :=
  match find_connection p t with
  | Some c => Some (c, p)
  | None =>
      match po_idle p with
      | c :: idle => Some (c, mkPool ((t, c) :: po_used p) idle (po_opened p))
      | [] => if (List.length (po_used p) <? max_size)%nat then Some (po_opened p, mkPool ((t, po_opened p) :: po_used p) [] (po_opened p + 1)) else None
      end
  end.
(** database.py:73-86 __release_connection *)
Definition release_connection (p : pool) (t : task) : pool :=
  match find_connection p t with
  | Some c => mkPool (filter (fun x => negb (task_eqb (fst x) t)) (po_used p)) (po_idle p ++ [c]) (po_opened p)
  | None => p
  end.

Record world := mkWorld {
  w_db : geo;                       (* what has been committed *)
  w_waiting : list geofeed;         (* before the semaphore *)
  w_running : list (geofeed * Z);   (* behind it, with the time of the transaction *)
  w_ended : list N;                 (* tasks whose callback has not been called yet *)
  w_slots : nat;                    (* of the semaphore *)
  w_pool : pool;
  w_failed : bool                   (* a task has raised an exception *)
}.

(** What happens next: the task of a feed passes the semaphore, at a time; it gets its answer;
    its callback is called; all tasks are cancelled; the pool closes an idle connection *)
Inductive turn := Enter (id : N) (t : Z) | Answered (id : N) | Released (id : N) | Cancelled | Closed (c : N).

Section Tasks.
  Variable decode : list N -> option cstr.
  Variable space : N -> bool.
  Variable upper : cstr -> cstr.
  Variable py_net : cstr -> option pnet.
  Variable web : cstr -> fetched.

  Definition without (id : N) (l : list geofeed) : list geofeed := filter (fun g => negb (g_id g =? id)) l.
  Definition without_running (id : N) (l : list (geofeed * Z)) : list (geofeed * Z) := filter (fun x => negb (g_id (fst x) =? id)) l.

  (** None: this cannot be next *)
  Definition turn_step (w : world) (e : turn) : option world :=
    match e with
    | Enter id t =>
        match find (fun g => g_id g =? id) (w_waiting w), w_slots w with
        | Some g, S slots =>
            match connection (w_pool w) (Some id) with
            | Some (_, p) => Some (mkWorld (w_db w) (without id (w_waiting w)) (w_running w ++ [(g, t)]) (w_ended w) slots p (w_failed w))
            | None => Some (mkWorld (w_db w) (without id (w_waiting w)) (w_running w) (w_ended w ++ [id]) (S slots) (w_pool w) true)
            end
        | _, _ => None
        end
    | Answered id =>
        match find (fun x => g_id (fst x) =? id) (w_running w) with
        | Some (g, t) =>
            let rest := without_running id (w_running w) in
            match fetch_geofeed decode space upper py_net t web g (w_db w) with
            | Some db => Some (mkWorld db (w_waiting w) rest (w_ended w ++ [id]) (S (w_slots w)) (w_pool w) (w_failed w))
            | None => Some (mkWorld (w_db w) (w_waiting w) rest (w_ended w ++ [id]) (S (w_slots w)) (w_pool w) true)
            end
        | None => None
        end
    | Released id =>
        if existsb (N.eqb id) (w_ended w)
        then Some (mkWorld (w_db w) (w_waiting w) (w_running w) (filter (fun x => negb (x =? id)) (w_ended w)) (w_slots w) (release_connection (w_pool w) (Some id)) (w_failed w))
        else None
    | Cancelled =>
        if w_failed w && negb ((List.length (w_waiting w) + List.length (w_running w) =? 0)%nat)
        then Some (mkWorld (w_db w) [] [] (w_ended w ++ map (fun x => g_id (fst x)) (w_running w)) (w_slots w + List.length (w_running w)) (w_pool w) true)
        else None
    | Closed c =>
        if existsb (N.eqb c) (po_idle (w_pool w))
        then Some (mkWorld (w_db w) (w_waiting w) (w_running w) (w_ended w) (w_slots w)
                    (mkPool (po_used (w_pool w)) (filter (fun x => negb (x =? c)) (po_idle (w_pool w))) (po_opened (w_pool w))) (w_failed w))
        else None
    end.
  Fixpoint turns (w : world) (l : list turn) : option world :=
    match l with
    | [] => Some w
    | e :: l' => match turn_step w e with Some w' => turns w' l' | None => None end
    end.

  (** location-importer.in:1810-1829: the main task has the first connection. *)
  Definition first_world (t0 : Z) (st : geo) : world :=
    mkWorld st (by_id (filter (older t0 week) (ge_feeds st))) [] [] 32 (mkPool [(None, 0)] [] 1) false.
  (** 1770-1849 handle_update_geofeeds, which selects the feeds at [t0] and comes to the end of
      the group at [t2]; None: [l] is not what happened. *)
  Definition update_geofeeds_tasks (linked : list cstr) (st : geo) (t0 : Z) (l : list turn) (t2 : Z) : option (geo * bool) :=
    match turns (first_world t0 (fold_left (fun st url => link url st) linked (unlink linked st))) l with
    | Some w =>
        match w_waiting w, w_running w with
        | [], [] => if w_failed w then Some (w_db w, false) else Some (expire t2 (w_db w), true)
        | _, _ => None
        end
    | None => None
    end.
End Tasks.
