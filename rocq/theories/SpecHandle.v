(** What the theorems about the resources of databases are about (C92). *)
From Coq Require Import NArith ZArith List Bool Arith Permutation.
From Verif Require Import Base ModelDatabase ModelHandle.
Import ListNotations.
Open Scope nat_scope.

(** dup returns a descriptor that was not open *)
Definition fresh (s : res) (o : answers) : Prop := forall fd, o_dup o = Some fd -> ~ In fd (r_fds s).
Definition works (o : answers) (fd : nat) : Prop := o = mkAnswers true (Some fd) true true true true true.
(** What is not in order in the code: dup returned descriptor 0, or fdopen failed for a descriptor *)
Definition usual (o : answers) : Prop := o_dup o <> Some 0 /\ (o_dup o = None \/ o_fdopen o = true).
(** The descriptors of databases *)
Definition descriptors (live : list (handle * db)) : list nat :=
  flat_map (fun x => match h_f (fst x) with Some fd => [fd] | None => [] end) live.
(** Each database has one descriptor, one FILE, one mapping, two blocks of memory and two references of the context, and nothing else
    was taken. *)
Definition accounted (s0 s : res) (live : list (handle * db)) : Prop :=
  Permutation (r_fds s) (descriptors live ++ r_fds s0) /\ length (descriptors live) = length live /\
  r_streams s = r_streams s0 + length live /\ r_maps s = r_maps s0 + length live /\
  r_blocks s = r_blocks s0 + 2 * length live /\ r_ctx s = r_ctx s0 + 2 * length live.
(** The answers are possible in each state, and usual *)
Fixpoint possible (s : res) (live : list (handle * db)) (l : list dbact) : Prop :=
  match l with
  | [] => True
  | a :: l' => match a with OpenDb o _ => fresh s o /\ usual o | CloseDb _ => True end /\
               match dbstep s live a with Ok (s, live) => possible s live l' | _ => True end
  end.
