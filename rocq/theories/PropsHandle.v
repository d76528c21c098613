(** C92: what databases take from the system and give back. *)
From Coq Require Import NArith ZArith List Bool Arith Lia Permutation.
From Verif Require Import Base ModelFile ModelDatabase ModelHandle SpecHandle LemmasHandle.
Import ListNotations.
Open Scope nat_scope.

(** A database that could not be opened leaves nothing behind *)
Theorem C92_failed : forall o f s r s', fresh s o -> usual o -> database_new o f s = Ok (r, s', None) -> r <> 0%Z /\ s' = s.
Proof. exact failed. Qed.
Print Assumptions C92_failed.

(** It is opened if all calls work and the file is in order, and dropping it gives everything back *)
Theorem C92_opened : forall o f s fd d, works o fd -> fd <> 0 -> db_open f = Ok d ->
  exists h s', database_new o f s = Ok (0%Z, s', Some (h, d)) /\
    r_fds s' = fd :: r_fds s /\ (~ In fd (r_fds s) -> free_database h s' = s).
Proof. exact opened. Qed.
Print Assumptions C92_opened.

(** And only then *)
Theorem C92_only : forall o f s r s' h d, fresh s o -> usual o -> database_new o f s = Ok (r, s', Some (h, d)) ->
  r = 0%Z /\ db_open f = Ok d /\ exists fd, works o fd /\ h_f h = Some fd.
Proof. exact succeeds. Qed.
Print Assumptions C92_only.

(** A file that is short of a magic, or not short of a header, gives one or the other whatever the system answers *)
Theorem C92_safe : forall o f s, (flen f < 2 ^ 63)%N -> (flen f < 8 \/ 4192 <= flen f)%N -> exists r s' x, database_new o f s = Ok (r, s', x).
Proof. exact new_safe. Qed.
Print Assumptions C92_safe.

(** After any number of databases were opened, could not be opened or were dropped, in any order, what was taken is that of
    the databases which are open. No descriptor is closed twice. *)
Theorem C92_history : forall l s s' live, NoDup (r_fds s) -> possible s [] l -> dbsteps s [] l = Ok (s', live) ->
  accounted s s' live /\ NoDup (r_fds s') /\
  (live = [] -> Permutation (r_fds s') (r_fds s) /\ s' = mkRes (r_fds s') (r_streams s) (r_maps s) (r_blocks s) (r_ctx s)).
Proof. exact history_accounted. Qed.
Print Assumptions C92_history.

(** If standard input is closed then dup returns 0: no file can be opened, and the descriptor remains open *)
Theorem C92_zero : forall o f s, o_calloc o = true -> o_dup o = Some 0 -> ~ In 0 (r_fds s) ->
  database_new o f s = Ok (1%Z, mkRes (0 :: r_fds s) (r_streams s) (r_maps s) (r_blocks s) (r_ctx s), None).
Proof. exact zero_leaks. Qed.
Print Assumptions C92_zero.

(** If fdopen fails then the descriptor remains open *)
Theorem C92_fdopen : forall o f s fd, o_calloc o = true -> o_dup o = Some fd -> o_fdopen o = false ->
  database_new o f s = Ok (1%Z, mkRes (fd :: r_fds s) (r_streams s) (r_maps s) (r_blocks s) (r_ctx s), None).
Proof. exact fdopen_leaks. Qed.
Print Assumptions C92_fdopen.

(** Two databases, one file that is none and a system without memory for a mapping; the first database is dropped *)
Definition empty92 : list N := MAGIC ++ [1%N] ++ repeat 0%N (N.to_nat 4192).
Definition proc92 : res := mkRes [3; 2; 1; 0] 4 10 20 1.
Definition hist92 : list dbact :=
  [OpenDb (mkAnswers true (Some 4) true true true true true) empty92; OpenDb (mkAnswers true (Some 5) true true false true true) empty92;
   OpenDb (mkAnswers true (Some 5) true true true true true) (repeat 7%N 9); OpenDb (mkAnswers true (Some 5) true true true true true) empty92;
   CloseDb 1].
Example C92_case :
  NoDup (r_fds proc92) /\ possible proc92 [] hist92 /\
  (exists x, dbsteps proc92 [] hist92 = Ok (mkRes [5; 3; 2; 1; 0] 5 11 22 3, [x])) /\
  (exists x, dbsteps proc92 [] (hist92 ++ [CloseDb 0]) = Ok (proc92, x)) /\
  (exists d, db_open empty92 = Ok d) /\ (4192 <= flen empty92 < 2 ^ 63)%N.
Proof.
  split; [repeat constructor; cbn; lia|]. split.
  - cbn [possible hist92]. repeat (split; [first [exact Logic.I | split; [intros fd E; injection E as <-; vm_compute; lia|split; [discriminate|now right]]]|];
      match goal with |- match ?x with _ => _ end => let y := eval vm_compute in x in replace x with y by (vm_compute; reflexivity); cbv iota beta end).
    exact Logic.I.
  - split; [eexists; vm_compute; reflexivity|]. split; [eexists; vm_compute; reflexivity|]. split; [eexists; vm_compute; reflexivity|]. vm_compute. split; [discriminate|reflexivity].
Qed.

(** So without [usual] a failure leaves something behind, and a file in order is refused although every call works *)
Theorem C92_leak_refuted : exists o f s r s', fresh s o /\ database_new o f s = Ok (r, s', None) /\ s' <> s /\
  works o 0 /\ exists d, db_open f = Ok d.
Proof.
  exists (mkAnswers true (Some 0) true true true true true), empty92, (mkRes [3; 2; 1] 4 10 20 1), 1%Z, (mkRes [0; 3; 2; 1] 4 10 20 1).
  split; [intros fd E; injection E as <-; cbn; lia|]. split; [vm_compute; reflexivity|]. split; [discriminate|]. split; [reflexivity|].
  eexists. vm_compute. reflexivity.
Qed.
Print Assumptions C92_leak_refuted.
