(** C83: the log of the library, and of the Lua module *)
From Coq Require Import String.
From Coq Require Import NArith ZArith List Bool Arith Lia.
From Verif Require Import Base ModelCountryCode ModelStringPool SpecText ModelLog SpecLog LemmasLog.
Import ListNotations.
Open Scope N_scope.

(** After any calls, a message is passed on exactly once to the callback that was set last if
    it is important enough for the level that was set last, else not at all; nothing else
    depends on it. *)
Theorem C83_delivery : forall debug reg c h1 m h2 p o, latest priority_of (level c) h1 p -> latest callback_of (out c) h1 o ->
  exists e, passed_on debug p o m e /\
    snd (steps debug reg c (h1 ++ Say m :: h2)) = snd (steps debug reg c h1) ++ e ++ snd (steps debug reg (mkCtx p o) h2).
Proof. exact delivery. Qed.
Print Assumptions C83_delivery.

(** A new context has the level that LOC_LOG says, LOG_ERR without it.
    Missing: the other values of LOC_LOG *)
Theorem C83_environment_partial : forall debug created shown,
  (forall s p, says_level s p -> level (fst (loc_new debug created shown (Some s))) = p) /\ level (fst (loc_new debug created shown None)) = 3%Z.
Proof. exact (fun debug created shown => conj (fun s p H => levels s p H) eq_refl). Qed.
Print Assumptions C83_environment_partial.
(** Texts that are no level do not leave the default value: not even errors are passed on. *)
Theorem C83_unknown_refuted : forall debug created shown s, no_level s ->
  let c := fst (loc_new debug created shown (Some s)) in
  forall m, prio m = 3%Z -> forall reg, level c = 0%Z /\ snd (steps debug reg c [Say m]) = [].
Proof.
  exact (fun debug created shown s H m P reg => conj (unknown s H)
    (eq_trans (app_nil_r _) (proj2 (emit_passed debug (mkCtx (log_priority s) Stderr) m)
      (fun X => match X with conj X _ => X (eq_trans (f_equal2 Z.compare P (unknown s H)) eq_refl) end)))).
Qed.
Print Assumptions C83_unknown_refuted.
(** The level is not always one of syslog(3), as loc_get_log_priority(3) has it; large numbers
    are taken modulo 2^32. *)
Theorem C83_syslog_refuted : exists s, level (fst (loc_new false [] (fun _ => []) (Some s))) = 100%Z /\
  exists s', s' = txt "-1" /\ level (fst (loc_new false [] (fun _ => []) (Some s'))) = (-1)%Z /\
  exists s'', s'' = txt "4294967303" /\ level (fst (loc_new false [] (fun _ => []) (Some s''))) = 7%Z.
Proof.
  exact (ex_intro _ (txt "100") (conj eq_refl (ex_intro _ (txt "-1") (conj eq_refl (conj eq_refl
    (ex_intro _ (txt "4294967303") (conj eq_refl eq_refl))))))).
Qed.
Print Assumptions C83_syslog_refuted.

(** loc_set_log_fn(3) says that the function is called for each message. It is never called,
    as only callbacks of loc_set_log_callback are, and the call changes nothing at all (with a
    level of LOG_INFO or more there is one message, which says that it was registered). *)
Theorem C83_set_fn_refuted : forall debug reg c,
  (forall h1 f h2, (level (fst (steps debug reg c h1)) < 6)%Z -> steps debug reg c (h1 ++ Set_fn f :: h2) = steps debug reg c (h1 ++ h2)) /\
  (forall h f d m, In (Called f d m) (snd (steps debug reg c h)) -> In (Set_callback f d) h \/ out c = Callback f d).
Proof. exact (fun debug reg c => conj (set_fn_nothing debug reg c) (fun h f d m => only_callbacks debug reg h f d m c)). Qed.
Print Assumptions C83_set_fn_refuted.

(** With one state of Lua, a message goes once to the function that was set last, with its
    priority and its text, if it is important enough; without one to stderr. *)
Theorem C83_lua_partial : forall debug env st p, Forall (of_state st) p -> Forall level_fits p ->
  exists l es, lua_steps debug env lua0 (Open st :: p) = Ok (l, es) /\
    forall z f m, latest level_set (level_of env) p z -> latest function_set None p f ->
      exists e, lua_step debug env l (Lua_say 0 m) = Ok (l, e) /\
        (important debug z m -> e = [lua_to st f m]) /\ (~ important debug z m -> e = []).
Proof.
  exact (fun debug env st p F V => match lua_fine debug env st p F V with
    ex_intro _ l (ex_intro _ es E) => ex_intro _ l (ex_intro _ es (conj E (fun z f m => lua_last debug env st p l es z f m F E))) end).
Qed.
Print Assumptions C83_lua_partial.
(** With two states, the key of the function of one is used for the other one: a function that
    has nothing to do with the log is called, or an error is raised. *)
Theorem C83_lua_states_refuted : exists m,
  seen (lua_steps false None lua0 [Open 1; Set_function 1 (Fn 10); Keep 1 (Fn 77); Open 2; Keep 2 Not_fn; Set_function 2 (Fn 20); Lua_say 0 m]) =
    Some [Lua_called 1 77 (prio m) (text m)] /\
  seen (lua_steps false None lua0 [Open 1; Set_function 1 (Fn 10); Open 2; Keep 2 Not_fn; Set_function 2 (Fn 20); Lua_say 0 m]) = Some [Lua_error 1].
Proof. exact (ex_intro _ _ (two_states _ eq_refl)). Qed.
Print Assumptions C83_lua_states_refuted.
(** Functions that were replaced are never given back. *)
Theorem C83_lua_kept_refuted : forall debug env st p l es, lua_steps debug env lua0 p = Ok (l, es) ->
  (functions_set st p <= List.length (registry l st))%nat.
Proof. exact (fun debug env st p l es => lua_kept debug env st p lua0 l es). Qed.
Print Assumptions C83_lua_kept_refuted.
(** A level that is no int is undefined. *)
Theorem C83_lua_level_refuted : forall debug env l t, ~ level_fits (Set_level t) -> lua_step debug env l (Set_level t) = UB.
Proof. exact level_unfit. Qed.
Print Assumptions C83_lua_level_refuted.

(** ** Cases *)
Definition m3 : message := mkMessage 3 (txt "database.c") 100 (txt "loc_database_open") (txt "Could not stat file").
Definition m6 : message := mkMessage 6 (txt "database.c") 101 (txt "loc_database_open") (txt "Opened").
Definition m7 : message := mkMessage 7 (txt "database.c") 102 (txt "loc_database_open") (txt "Done").
Example C83_case :
  snd (steps false (fun _ => []) (fst (loc_new false [] (fun _ => []) None))
    [Say m3; Say m6; Set_priority 7; Say m6; Say m7; Set_callback 5 9; Say m3; Set_fn 8; Set_priority 2; Say m3]) =
  [Written (txt "libloc: loc_database_open: Could not stat file"); Written (txt "libloc: loc_database_open: Opened");
   Called 5 9 m3; Called 5 9 (set_fn_message (fun _ => []) 8)].
Proof. vm_compute. reflexivity. Qed.
Example C83_latest_case : latest priority_of 3%Z [Set_priority 1; Set_priority 7; Say m3] 7%Z /\ latest callback_of Stderr [Set_priority 1; Say m3] Stderr /\
  important true 7 m7 /\ ~ important false 7 m7 /\ ~ important true 2 m3.
Proof.
  repeat split; try (intros [H H']; try (specialize (H' eq_refl); discriminate); revert H; vm_compute; intros H; now apply H).
  - left. exists [Set_priority 1], (Set_priority 7), [Say m3]. repeat constructor.
  - right. repeat constructor.
  - vm_compute. discriminate.
Qed.
Example C83_environment_case : says_level (txt " +12 ") 12 /\ says_level (txt "-7") (-7) /\ says_level (txt "007") 7 /\
  says_level (txt "error") 3 /\ says_level (txt "information") 6 /\ says_level (txt "debug") 7 /\
  no_level [] /\ no_level (txt "warning") /\ no_level (txt " debug") /\ no_level (txt "DEBUG") /\
  map log_priority [txt " +12 "; txt "-7"; txt "007"; txt "error"; []; txt " debug"; txt "3x"; txt "+"] = [12; -7; 7; 3; 0; 0; 0; 0]%Z.
Proof.
  split. { apply (Plus (txt " ") (txt "12") 12 (txt " ")); [repeat constructor|exists [1; 2]; repeat split; repeat constructor; discriminate|right; exists 32, []; split; [reflexivity|now left]|reflexivity]. }
  split. { apply (Minus [] (txt "7") 7 []); [constructor|exists [7]; repeat split; repeat constructor; discriminate|now left|discriminate]. }
  split. { apply (Number [] (txt "007") 7 []); [constructor|exists [0; 0; 7]; repeat split; repeat constructor; discriminate|now left|reflexivity]. }
  split. { apply (Err_ (txt "or")). }
  split. { apply (Info (txt "rmation")). }
  split. { apply (Debug []). }
  split. { exists [], []. repeat split; try constructor; discriminate. }
  split. { exists [], (txt "warning"). unfold blank. repeat split; try constructor; try discriminate; vm_compute; intuition discriminate. }
  split. { exists [32], (txt "debug"). unfold blank. repeat split; try (constructor; [now left|constructor]); try discriminate; vm_compute; intuition discriminate. }
  split. { exists [], (txt "DEBUG"). unfold blank. repeat split; try constructor; try discriminate; vm_compute; intuition discriminate. }
  vm_compute. reflexivity.
Qed.
Example C83_lua_case : let p := [Set_function 1 (Fn 10); Lua_say 0 m3; Keep 1 Not_fn; Set_level (Some 6%Z); Set_function 1 (Fn 20)] in
  Forall (of_state 1) p /\ Forall level_fits p /\ latest level_set 3%Z p 6%Z /\ latest function_set None p (Some 20) /\
  seen (lua_steps false None lua0 (Open 1 :: p ++ [Lua_say 0 m6])) =
    Some [Lua_called 1 10 3 (txt "Could not stat file"); Lua_called 1 20 6 (txt "Opened")] /\
  ~ level_fits (Set_level (Some (2 ^ 31)%Z)).
Proof.
  cbv zeta. split; [repeat constructor|]. split. { repeat constructor. exists 6%Z. split; [reflexivity|lia]. }
  split. { left. exists [Set_function 1 (Fn 10); Lua_say 0 m3; Keep 1 Not_fn], (Set_level (Some 6%Z)), [Set_function 1 (Fn 20)]. repeat constructor. }
  split. { left. exists [Set_function 1 (Fn 10); Lua_say 0 m3; Keep 1 Not_fn; Set_level (Some 6%Z)], (Set_function 1 (Fn 20)), []. repeat constructor. }
  split; [vm_compute; reflexivity|]. intros (z & E & H). inversion E; subst. lia.
Qed.
