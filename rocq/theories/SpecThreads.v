(** What the theorems about threads are about (C91). *)
From Coq Require Import NArith ZArith List Bool Arith.
From Verif Require Import Base ModelAddress ModelText ModelThreads.
Import ListNotations.
Open Scope nat_scope.

(** [n] threads, none of them in the function *)
Definition quiet (n : nat) : list where_ := repeat Idle n.
Definition machine0 (n : nat) : machine := mkMachine ring0 (quiet n).
(** Calls that do not overlap, e.g. because the program has a lock: the five steps of each are next to each other. *)
Definition one_by_one (l : list (nat * addr)) : list (nat * addr) := flat_map (fun c => repeat c 5) l.
(** What loc_address_str returns for them, without threads *)
Fixpoint sequential (r : ring) (l : list (nat * addr)) : outcome (ring * list (nat * option nat)) :=
  match l with
  | [] => Ok (r, [])
  | (t, a) :: l' => do (r, p) <- address_str r (Some a); do (r, ps) <- sequential r l'; Ok (r, (t, p) :: ps)
  end.
(** Steps of these threads only *)
Definition within (n : nat) (l : list (nat * addr)) : Prop := Forall (fun c => fst c < n) l.

(** References: operations that do not overlap; and how many references there are after some of them *)
Definition one_by_one_ref (l : list (nat * refop)) : list (nat * refop) := flat_map (fun o => [o; o]) l.
Definition balance (c : Z) (l : list (nat * refop)) : Z :=
  fold_left (fun c o => match snd o with Ref => c + 1 | Unref => c - 1 end)%Z l c.
(** There is a reference as long as something is done *)
Definition owned (c : Z) (l : list (nat * refop)) : Prop :=
  forall k, k < length l -> (0 < balance c (firstn k l))%Z.
Definition shared0 (n : nat) (c : Z) : shared := mkShared c 0 (repeat None n).
(** How many references a thread has, if it had [c] *)
Definition owns (t : nat) (c : Z) (l : list (nat * refop)) : Z := balance c (filter (fun o => fst o =? t) l).
(** A schedule of operations: each thread does its own in their order, two steps for each *)
Definition schedule_of (ops sch : list (nat * refop)) : Prop :=
  forall t, filter (fun o => fst o =? t) sch = one_by_one_ref (filter (fun o => fst o =? t) ops).
