(** Specification vocabulary for the string pool. *)
From Coq Require Import NArith ZArith List Bool Arith.
From Verif Require Import Base ModelCountryCode ModelStringPool.
Import ListNotations.
Open Scope N_scope.

(** A C string has no NUL. *)
Definition is_cstr (s : cstr) : Prop := Forall (fun x => 0 < x < 256) s.

(** The memory [m] holds the NUL terminated string [s] at [off]. *)
Definition holds (m : list N) (off : nat) (s : cstr) : Prop :=
  firstn (length s + 1) (skipn off m) = s ++ [0].

(** Additions one after the other, with the offsets returned. *)
Fixpoint add_all (p : pool) (ss : list cstr) : outcome (pool * list nat) :=
  match ss with
  | [] => Ok (p, [])
  | s :: ss' =>
      do (p, off) <- pool_add p (Some s);
      do (p, offs) <- add_all p ss';
      Ok (p, off :: offs)
  end.
