(** C84: the tasks that fetch geofeeds, in whatever order they get their turns *)
From Coq Require Import String.
From Coq Require Import NArith ZArith List Bool Arith Lia.
From Verif Require Import Base ModelCountryCode ModelStringPool SpecText ModelImport SpecImport ModelGeofeed SpecGeofeed ModelTasks SpecTasks LemmasTasks PropsGeofeed.
Import ListNotations.
Open Scope N_scope.

(** If the command succeeds within a week, every feed has become what its own answer says,
    whatever order the tasks were in. *)
Theorem C84_update : forall decode space upper py_net web linked st t0 l t2 st',
  geo_wf st -> Forall (in_time t0 t2) l -> (t0 <= t2 < t0 + WEEK)%Z ->
  update_geofeeds_tasks decode space upper py_net web linked st t0 l t2 = Some (st', true) ->
  geo_wf st' /\ (forall url, In url linked <-> exists g, In g (ge_feeds st') /\ g_url g = url) /\
  forall g, In g (ge_feeds st') -> exists s u ps, before st (g_url g) (g_id g) s u ps /\
    outcome_at decode space upper py_net t0 t2 (web (g_url g)) s u ps (g_status g) (g_updated g) (places_of st' (g_id g)).
Proof. exact tasks_updated. Qed.
Print Assumptions C84_update.
(** If it fails, every feed has been dealt with completely or not at all, and nothing expires. *)
Theorem C84_failed : forall decode space upper py_net web linked st t0 l t2 st',
  geo_wf st -> Forall (in_time t0 t2) l ->
  update_geofeeds_tasks decode space upper py_net web linked st t0 l t2 = Some (st', false) ->
  geo_wf st' /\ (forall url, In url linked <-> exists g, In g (ge_feeds st') /\ g_url g = url) /\
  forall g, In g (ge_feeds st') -> exists s u ps, before st (g_url g) (g_id g) s u ps /\
    all_or_nothing decode space upper py_net t0 t2 (web (g_url g)) s u ps (g_status g) (g_updated g) (places_of st' (g_id g)).
Proof. exact tasks_failed. Qed.
Print Assumptions C84_failed.
(** It fails only if a file has a NUL, if there is an error that is not expected, or if 479
    tasks have ended whose callbacks have not been called. *)
Theorem C84_success : forall decode space upper py_net web linked st t0 l t2 st' b,
  geo_wf st -> (forall s, ~ In 0 s -> ~ In 0 (upper s)) -> (forall url, In url linked -> quiet decode (web url)) -> Forall (in_time t0 t2) l ->
  (forall l1 l2 w, l = l1 ++ l2 ->
    turns decode space upper py_net web (first_world t0 (fold_left (fun st url => link url st) linked (unlink linked st))) l1 = Some w -> (List.length (w_ended w) < 479)%nat) ->
  update_geofeeds_tasks decode space upper py_net web linked st t0 l t2 = Some (st', b) -> b = true.
Proof. exact tasks_quiet. Qed.
Print Assumptions C84_success.

(** In every state that can be reached: not more than 32 requests are made at a time; every
    task that runs has a connection, no two tasks have the same, none that is in use is given
    out again, and in the end all are back but the one of the main task. *)
Theorem C84_connections : forall decode space upper py_net web linked st t0 l w, geo_wf st ->
  turns decode space upper py_net web (first_world t0 (fold_left (fun st url => link url st) linked (unlink linked st))) l = Some w ->
  (List.length (w_running w) <= 32)%nat /\ unshared (w_pool w) /\
  (forall g t, In (g, t) (w_running w) -> exists c, In (Some (g_id g), c) (po_used (w_pool w))) /\
  (w_running w = [] -> w_ended w = [] -> po_used (w_pool w) = [(None, 0)]).
Proof.
  exact (fun decode space upper py_net web linked st t0 l w Wf H =>
    match reach_pool decode space upper py_net web linked st t0 l w Wf H with V =>
      conj (slots_bound w V) (conj (p_unshared w V) (conj (fun g t => running_connected w g t V) (all_returned w V))) end).
Qed.
Print Assumptions C84_connections.
(** There is always a next turn until all tasks have ended, and there are at most three for
    each feed (not counting those in which the pool closes connections). *)
Theorem C84_ends : forall decode space upper py_net web linked st t0 l w, geo_wf st ->
  let first := first_world t0 (fold_left (fun st url => link url st) linked (unlink linked st)) in
  turns decode space upper py_net web first l = Some w ->
  (forall t, w_waiting w <> [] \/ w_running w <> [] -> exists e w', busy e /\ in_time t t e /\ turn_step decode space upper py_net web w e = Some w') /\
  (List.length (filter is_busy l) <= 3 * List.length (ge_feeds (w_db first)))%nat.
Proof.
  exact (fun decode space upper py_net web linked st t0 l w Wf H =>
    conj (fun t => next_turn decode space upper py_net web w t (reach_pool decode space upper py_net web linked st t0 l w Wf H))
      (turns_bound decode space upper py_net web t0 _ l w H)).
Qed.
Print Assumptions C84_ends.

(** ** Cases *)
Definition hour84 : Z := 3600 * 1000000.
Definition turns84 : list turn :=
  [Enter 12 (100 * day71 + 1); Enter 2 (100 * day71 + 2); Answered 2; Enter 1 (100 * day71 + 3); Released 2; Enter 3 (100 * day71 + 4); Answered 12;
   Answered 3; Released 3; Closed 2; Enter 6 (100 * day71 + 5); Answered 6; Answered 1; Released 1; Released 6; Released 12].
Example C84_case : Forall (in_time (100 * day71) (100 * day71 + hour84)) turns84 /\ (100 * day71 <= 100 * day71 + hour84 < 100 * day71 + WEEK)%Z /\
  option_map (fun x => (map (places_of (fst x)) [1; 2; 3; 4; 5; 6; 12], map g_status (ge_feeds (fst x)), map g_updated (ge_feeds (fst x)), snd x))
    (update_geofeeds_tasks ascii space71 upper71 net71 web71 linked71 st71 (100 * day71) turns84 (100 * day71 + hour84)) =
  Some ([places71; []; [a_place (txt "IT")]; [a_place (txt "ES")]; []; []; places71], [None; Some 404%Z; Some 599%Z; None; Some 503%Z; None],
    [Some (100 * day71 + 3)%Z; Some (90 * day71)%Z; Some (90 * day71)%Z; Some (95 * day71)%Z; Some (86 * day71)%Z; Some (100 * day71 + 1)%Z], true).
Proof.
  split; [|split].
  - repeat constructor; vm_compute; discriminate.
  - split; vm_compute; [discriminate|reflexivity].
  - vm_compute. reflexivity.
Qed.
(** another order, with the same result but for the times *)
Example C84_order_case : option_map (fun x => (map (places_of (fst x)) [1; 2; 3; 4; 5; 6; 12], snd x))
    (update_geofeeds_tasks ascii space71 upper71 net71 web71 linked71 st71 (100 * day71)
      [Enter 6 (100 * day71); Enter 3 (100 * day71); Enter 1 (100 * day71); Answered 1; Answered 3; Enter 12 (100 * day71); Enter 2 (100 * day71); Answered 12; Answered 6; Answered 2]
      (100 * day71 + hour84)) =
  Some ([places71; []; [a_place (txt "IT")]; [a_place (txt "ES")]; []; []; places71], true).
Proof. vm_compute. reflexivity. Qed.
(** the server of u3 fails: u1 has been updated, u6 too although it was later, the others have not *)
Definition web84 (url : cstr) : fetched := if cstr_eqb url (txt "u3") then Failed else web71 url.
Example C84_failed_case : option_map (fun x => (map (places_of (fst x)) [1; 2; 3; 6; 12], map g_status (ge_feeds (fst x)), snd x))
    (update_geofeeds_tasks ascii space71 upper71 net71 web84 linked71 st71 (100 * day71)
      [Enter 1 (100 * day71); Enter 2 (100 * day71); Enter 3 (100 * day71); Enter 6 (100 * day71); Answered 1; Answered 3; Answered 6; Cancelled] (100 * day71 + hour84)) =
  Some ([places71; [a_place (txt "CH")]; [a_place (txt "IT")]; [a_place (txt "PL")]; []], [None; None; None; None; Some 503%Z; None], false).
Proof. vm_compute. reflexivity. Qed.
