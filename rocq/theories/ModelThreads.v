(** Model of threads that share the library: loc_address_str (src/address.c:45-60) with its static buffers and index, and the counter of references
    of a network (src/network.c:108-127; those of the other objects are the same). Every read and every write of a shared variable is one step; steps of different
    threads are in any order. Simplified: all threads see the writes in the same order, which C does not promise either. *)
From Coq Require Import NArith ZArith List Bool Arith.
From Verif Require Import Base ModelAddress ModelText.
Import ListNotations.
Open Scope nat_scope.

(** ** loc_address_str *)
(** Where a thread is in the function, with the value it has read at line 50, which is the buffer it uses, and that of line 53 *)
Inductive where_ := Idle | Read50 (a : addr) (x : nat) | Wrote50 (a : addr) (x : nat) | Read53 (a : addr) (x y : nat) | Wrote53 (a : addr) (x : nat).
Record machine := mkMachine { m_ring : ring; m_threads : list where_ }.
Definition at_ (m : machine) (t : nat) : where_ := nth t (m_threads m) Idle.
Definition move (m : machine) (t : nat) (w : where_) (idx : nat) : machine :=
  mkMachine (mkRing (r_buffers (m_ring m)) idx) (upd (m_threads m) t w).

(** One step of thread [t]; if it is not in the function, it calls it for [a]. When it returns, the result is the pointer. *)
Definition step_str (m : machine) (t : nat) (a : addr) : outcome (machine * option (option nat)) :=
  let idx := r_idx (m_ring m) in
  match at_ m t with
  | Idle => Ok (move m t (Read50 a idx) idx, None)
  | Read50 a x => Ok (move m t (Wrote50 a x) (x + 1), None)
  | Wrote50 a x => Ok (move m t (Read53 a x idx) idx, None)
  | Read53 a x y => Ok (move m t (Wrote53 a x) (y mod ADDRESS_BUFFERS), None)
  | Wrote53 a x =>
      (* 55-58: inet_ntop writes to the buffer *)
      if ADDRESS_BUFFERS <=? x then UB
      else match address_text a INET6_ADDRSTRLEN with
           | Some s => Ok (mkMachine (mkRing (upd (r_buffers (m_ring m)) x s) idx) (upd (m_threads m) t Idle), Some (Some x))
           | None => Ok (move m t Idle idx, Some None)
           end
  end.
(** A schedule: which thread makes a step, and the address if it calls the function. The results of all calls that have returned. *)
Fixpoint run_str (m : machine) (l : list (nat * addr)) : outcome (machine * list (nat * option nat)) :=
  match l with
  | [] => Ok (m, [])
  | (t, a) :: l' =>
      do (m, r) <- step_str m t a;
      do (m, rs) <- run_str m l';
      Ok (m, match r with Some p => (t, p) :: rs | None => rs end)
  end.

(** ** References *)
Inductive refop := Ref | Unref.
(** What a thread has read of the counter, if it is between the read and the write *)
Record shared := mkShared { s_count : Z; s_freed : nat; s_in : list (option (refop * Z)) }.
(** network.c:108-112, 121-127: ++ and -- are a read and a write. [Fuel] does not occur; use of an object that was released is UB. *)
Definition step_ref (s : shared) (t : nat) (o : refop) : outcome shared :=
  match s_freed s with
  | S _ => UB
  | O =>
      match nth t (s_in s) None with
      | None => Ok (mkShared (s_count s) 0 (upd (s_in s) t (Some (o, s_count s))))
      | Some (Ref, c) => Ok (mkShared (c + 1) 0 (upd (s_in s) t None))
      | Some (Unref, c) => Ok (mkShared (c - 1) (if (0 <? c - 1)%Z then 0 else 1) (upd (s_in s) t None))
      end
  end.
Fixpoint run_ref (s : shared) (l : list (nat * refop)) : outcome shared :=
  match l with
  | [] => Ok s
  | (t, o) :: l' => do s <- step_ref s t o; run_ref s l'
  end.
