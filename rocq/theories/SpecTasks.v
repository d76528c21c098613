(** What is claimed about the tasks *)
From Coq Require Import String.
From Coq Require Import NArith ZArith List Bool Arith.
From Verif Require Import Base ModelCountryCode SpecText ModelImport SpecImport ModelGeofeed SpecGeofeed ModelTasks.
Import ListNotations.
Open Scope N_scope.

Definition WEEK : Z := 7 * 86400 * 1000000.
(** What an answer makes of a feed at [t]: status, time and places, before and after *)
Inductive fetched_at decode space upper py_net (t : Z) : fetched -> option Z -> option Z -> list place -> option Z -> option Z -> list place -> Prop :=
  | at_new : forall lines s u ps qs, entries decode space upper py_net lines qs ->
      fetched_at decode space upper py_net t (Answer lines) s u ps None (Some t) qs
  | at_gone : forall s u ps, fetched_at decode space upper py_net t (Http 404) s u ps (Some 404%Z) u []
  | at_kept : forall f s u ps c, (f = Http c /\ c <> 404%Z) \/ (f = Unreachable /\ c = 599%Z) ->
      fetched_at decode space upper py_net t f s u ps (Some c) u ps.
(** What is left at [t2] *)
Definition left_at (t2 : Z) (u : option Z) (ps qs : list place) : Prop :=
  (age_under t2 (2 * WEEK) u -> qs = ps) /\ (~ age_under t2 (2 * WEEK) u -> qs = []).
(** a feed as a whole: selected or not at [t0], fetched in between, expired or not at [t2] *)
Definition outcome_at decode space upper py_net (t0 t2 : Z) (f : fetched) s u ps s' u' ps' : Prop :=
  (age_under t0 WEEK u /\ s' = s /\ u' = u /\ ps' = ps) \/
  (~ age_under t0 WEEK u /\ exists t qs, (t0 <= t <= t2)%Z /\ fetched_at decode space upper py_net t f s u ps s' u' qs /\ left_at t2 u' qs ps').
(** ... when the command failed: all or nothing *)
Definition all_or_nothing decode space upper py_net (t0 t2 : Z) (f : fetched) s u ps s' u' ps' : Prop :=
  (s' = s /\ u' = u /\ ps' = ps) \/
  (~ age_under t0 WEEK u /\ exists t, (t0 <= t <= t2)%Z /\ fetched_at decode space upper py_net t f s u ps s' u' ps').

Definition in_time (t0 t2 : Z) (e : turn) : Prop := match e with Enter _ t => (t0 <= t <= t2)%Z | _ => True end.
(** Turns that bring the end nearer *)
Definition busy (e : turn) : Prop := match e with Closed _ => False | _ => True end.
Definition quiet decode (f : fetched) : Prop := f <> Failed /\ forall lines, f = Answer lines -> Forall (no_nul decode) lines.

(** The connections of the tasks *)
Definition unshared (p : pool) : Prop :=
  NoDup (map fst (po_used p)) /\ NoDup (map snd (po_used p) ++ po_idle p).
