(** What the theorems about running out of memory are about (C93). *)
From Coq Require Import NArith ZArith List Bool Arith.
From Verif Require Import Base ModelMemory.
Import ListNotations.
Open Scope nat_scope.

(** Nothing is taken, whatever was called *)
Definition same (m m' : mem) : Prop := m_blocks m' = m_blocks m /\ m_ctx m' = m_ctx m /\ m_db m' = m_db m.
(** The calls from the [a]-th, [n] of them, work *)
Definition all_work (ok : nat -> bool) (a n : nat) : Prop := forall i, i < n -> ok (a + i) = true.
(** How much of a path there is in a tree *)
Fixpoint existing (t : node) (path : list bool) {struct path} : nat :=
  match path with
  | [] => 0
  | b :: path' => match t, b with
                  | Node (Some c) _, false | Node _ (Some c), true => S (existing c path')
                  | _, _ => 0
                  end
  end.
(** What a writer needs: itself, the pool, its block, the tree, its root, the two lists, the keys *)
Definition needed (k1 k2 : option bool) : nat :=
  7 + (match k1 with Some _ => 1 | None => 0 end) + (match k2 with Some _ => 1 | None => 0 end).
Definition keys_ok (k1 k2 : option bool) : Prop := k1 <> Some false /\ k2 <> Some false.
(** Every path is still there *)
Definition keeps (t t' : node) : Prop := forall q, existing t q <= existing t' q.
(** [k] nodes more, after [calls] calls *)
Definition after (m : mem) (k calls : nat) : mem := mkMem (m_blocks m + k) (m_ctx m + k) (m_db m) (m_calls m + calls).
(** Pools in order; in an empty one blocks is NULL *)
Definition pool_inv (p : spool) : Prop := (p_length p <= p_size p)%N /\ (p_blocks p = false -> p_size p = 0%N).
