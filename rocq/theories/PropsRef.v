(** C40: reference counts *)
From Coq Require Import ZArith List Bool Arith Lia ZifyBool ZifyNat.
From Verif Require Import Base ModelRef SpecRef LemmasRef.
Import ListNotations.
Open Scope nat_scope.

(** The full statement would be this without [few] in [lawful_op]: it fails when an object
    has 2^31 - 1 references ([C40_overflow_refuted]). No call of a history reaches an object that
    has been freed, what the caller may use is alive, and an object is freed when, and only
    when, there is no reference to it, and no more than once. *)
Theorem C40_once_partial rank fuel os : (forall p, rank p < fuel) -> lawful rank fuel nothing os ->
  exists s, do_ops fuel nothing os = Ok s /\
    (forall p, reach s p -> exists c, nth_error (rs_heap s) p = Some c /\ frees c = 0) /\
    (forall p c, nth_error (rs_heap s) p = Some c ->
       (frees c = 0 /\ refs c = Z.of_nat (references s p) /\ 0 < references s p) \/ (frees c = 1 /\ references s p = 0)).
Proof. exact (lawful_run rank fuel os). Qed.
Print Assumptions C40_once_partial.

(** When all references of the caller are dropped, every object has been freed once. *)
Theorem C40_no_leak_partial rank fuel os s : (forall p, rank p < fuel) -> lawful rank fuel nothing os ->
  do_ops fuel nothing os = Ok s -> rs_own s = [] ->
  forall p c, nth_error (rs_heap s) p = Some c -> frees c = 1.
Proof. exact (no_leak rank fuel os s). Qed.
Print Assumptions C40_no_leak_partial.

(** ** Functions of the library, after any lawful history: they are lawful, and leave the caller with the
    references they had and the one to the new object. *)
Section After.
  Variables (rank : nat -> nat) (fuel : nat) (os : list rop) (s : rstate).
  Hypothesis Rk : forall p, rank p < fuel.
  Hypothesis L : lawful rank fuel nothing os.
  Hypothesis E : do_ops fuel nothing os = Ok s.

  Theorem C40_object_new_partial c : reach s c -> few s c -> rank c < rank (length (rs_heap s)) ->
    let n := length (rs_heap s) in
    lawful rank fuel s (object_new n c) /\
    forall s', do_ops fuel s (object_new n c) = Ok s' -> rs_own s' = n :: rs_own s.
  Proof. exact (object_new_ok rank fuel s c Rk (history_inv rank fuel os s Rk L E)). Qed.
  Theorem C40_list_push_partial l x i : reach s l -> reach s x -> few s x -> rank x < rank l ->
    lawful rank fuel s (list_push l x i) /\
    forall s', do_ops fuel s (list_push l x i) = Ok s' -> rs_own s' = rs_own s /\
      exists c c', nth_error (rs_heap s) l = Some c /\ nth_error (rs_heap s') l = Some c' /\ slots c' = insert_at i x (slots c).
  Proof. exact (list_push_ok rank fuel s l x i (history_inv rank fuel os s Rk L E)). Qed.
  Theorem C40_list_clear_partial l xs c : In l (rs_own s) -> nth_error (rs_heap s) l = Some c -> forall rest, slots c = xs ++ rest ->
    lawful rank fuel s (list_clear l xs) /\
    forall s', do_ops fuel s (list_clear l xs) = Ok s' -> rs_own s' = rs_own s /\
      exists c', nth_error (rs_heap s') l = Some c' /\ slots c' = rest.
  Proof. exact (fun I1 Ec rest => list_clear_ok rank fuel l rest Rk xs s c (history_inv rank fuel os s Rk L E) I1 Ec). Qed.
  Theorem C40_set_list_partial e new i old c : In e (rs_own s) -> In new (rs_own s) -> few s new -> rank new < rank e ->
    nth_error (rs_heap s) e = Some c -> match old with Some o => nth_error (slots c) i = Some o | None => True end ->
    lawful rank fuel s (set_list e new i old) /\
    forall s', do_ops fuel s (set_list e new i old) = Ok s' -> rs_own s' = rs_own s /\
      exists c', nth_error (rs_heap s') e = Some c' /\
        slots c' = insert_at i new (match old with Some _ => remove_at i (slots c) | None => slots c end).
  Proof. exact (set_list_ok rank fuel s e new i old c Rk (history_inv rank fuel os s Rk L E)). Qed.
  (** Writing the section of ASes changes no count. *)
  Theorem C40_write_as_partial l c xs rest : reach s l -> nth_error (rs_heap s) l = Some c -> slots c = xs ++ rest -> (forall x, In x xs -> few s x) ->
    lawful rank fuel s (write_as l 0 xs) /\ do_ops fuel s (write_as l 0 xs) = Ok s.
  Proof.
    exact (fun Rl El Sl F => write_as_ok rank fuel l c (Nat.le_lt_trans _ _ _ (Nat.le_0_l _) (Rk 0)) xs 0 s (history_inv rank fuel os s Rk L E) Rl El
      (fun k x N => conj (eq_trans (f_equal (fun q => nth_error q k) Sl) (eq_trans (nth_error_app1 xs rest (proj1 (nth_error_Some xs k) (fun Q => eq_ind None (fun z => match z with None => True | _ => False end) Logic.I _ (eq_trans (eq_sym Q) N)))) N)) (F x (nth_error_In _ _ N)))).
  Qed.
End After.
Print Assumptions C40_object_new_partial.
Print Assumptions C40_write_as_partial.
Print Assumptions C40_list_push_partial.
Print Assumptions C40_list_clear_partial.
Print Assumptions C40_set_list_partial.

(** ** Findings *)
(** An object with 2^31 - 1 references: one more overflows the counter. *)
Theorem C40_overflow_refuted : exists n, do_ops 1 nothing (New :: repeat (Ref 0) n) = UB.
Proof. exact overflow. Qed.
Print Assumptions C40_overflow_refuted.

(** loc_network_list_summarize: the caller has dropped the list and the context, all they
    have been given; the network (2) and with it the context (0) are never freed. *)
Theorem C40_summarize_refuted :
  exists s n c, do_ops 3 nothing ([New] ++ object_new 1 0 ++ summarize_step 2 0 1 0 ++ [Unref 1; Unref 0]) = Ok s /\
    nth_error (rs_heap s) 2 = Some n /\ frees n = 0 /\ nth_error (rs_heap s) 0 = Some c /\ frees c = 0.
Proof. do 3 eexists. split; [vm_compute; reflexivity|]. repeat split. Qed.
Print Assumptions C40_summarize_refuted.

(** loc_database_write_countries: for every list, the references to the countries that have been
    taken are still there at the end, and nobody has a pointer to drop them with. *)
Theorem C40_write_countries_refuted : (forall fuel l n s s' c, nth_error (rs_heap s) l = Some c -> n <= length (slots c) ->
    do_ops fuel s (write_countries l n) = Ok s' -> rs_own s' = rev (firstn n (slots c)) ++ rs_own s) /\
  (** A writer with one country is written twice, then everything the caller has is dropped. *)
  exists s n, do_ops 3 nothing ([New] ++ object_new 1 0 ++ object_new 2 0 ++ list_push 1 2 0 ++ [Unref 2] ++ write_countries 1 1 ++ write_countries 1 1 ++ [Unref 1; Unref 0]) = Ok s /\
    nth_error (rs_heap s) 2 = Some n /\ frees n = 0 /\ refs n = 2%Z.
Proof. split; [exact (fun fuel l n s s' c => write_countries_leak fuel l n 0 s s' c)|]. do 2 eexists. split; [vm_compute; reflexivity|]. repeat split. Qed.
Print Assumptions C40_write_countries_refuted.

(** The same with ASes: all is freed. *)
Example C40_write_as_case : let os := [New] ++ object_new 1 0 ++ object_new 2 0 ++ object_new 3 0 ++ list_push 1 2 0 ++ list_push 1 3 1 ++ [Unref 2; Unref 3] in
  match do_ops 3 nothing os, do_ops 3 nothing (os ++ write_as 1 0 [2; 3]), do_ops 3 nothing (os ++ write_as 1 0 [2; 3] ++ [Unref 1; Unref 0]) with
  | Ok s, Ok s', Ok e => s' = s /\ option_map slots (nth_error (rs_heap s) 1) = Some [2; 3; 0] /\ map frees (rs_heap e) = [1; 1; 1; 1]
  | _, _, _ => False end.
Proof. vm_compute. repeat split. Qed.

(** ** Cases *)
Ltac reached :=
  first [ apply r_own; cbn; tauto
        | eapply (r_slot _ 1); [apply r_own; cbn; tauto|reflexivity|cbn; tauto]
        | eapply (r_slot _ 3); [apply r_own; cbn; tauto|reflexivity|cbn; tauto] ].
Ltac law_step :=
  match goal with
  | |- lawful _ _ _ [] => exact Logic.I
  | |- lawful _ _ _ (_ :: _) => split; [|let s := fresh "s" in let H := fresh "H" in
      intros s H; vm_compute in H; match type of H with Ok ?a = Ok _ => assert (s = a) as -> by congruence; clear H end]
  | |- lawful_op _ _ New => exact Logic.I
  | |- lawful_op _ _ (Ref _) => split; [reached|reflexivity]
  | |- lawful_op _ _ (Unref _) => cbn; tauto
  | |- lawful_op _ _ (RefSlot _ _) => split; [reached|intros ? ? E1 E2; cbn in E1; assert (E3 := f_equal (option_map slots) E1); cbn in E3;
       match type of E3 with Some ?a = Some ?b => assert (b = a) as X by congruence; rewrite X in E2; cbn in E2 end;
       match type of E2 with Some ?a = Some ?b => assert (b = a) as -> by congruence end; reflexivity]
  | |- lawful_op _ _ (Give _ _ _) => split; [reached|split; [cbn; tauto|cbn; lia]]
  | |- lawful_op _ _ (Take _ _) => reached
  end.

(** The context 0, a database 1 with its pool 2, an enumerator 3 with its stack 4, a list of
    countries 5 that is set twice, and the list 6. The caller drops the database and the
    context before the enumerator. *)
Definition kinds (p : nat) : nat := nth p [0; 2; 1; 3; 1; 1; 1] 0.
Definition history : list rop :=
  [New] ++ database_new 1 2 0 ++ enumerator_new 3 1 0 4 ++ object_new 5 0 ++ set_list 3 5 3 None ++
  object_new 6 0 ++ set_list 3 6 3 (Some 5) ++ [RefSlot 3 3; Unref 5; Unref 6; Unref 1; Unref 0].
Example kinds_bound : forall p, kinds p < 4.
Proof. unfold kinds. do 7 (intros [|p]; [cbn; lia|revert p]). intros [|p]; cbn; lia. Qed.
Example history_lawful : lawful kinds 4 nothing history.
Proof. unfold history. cbn [app database_new object_new enumerator_new set_list]. repeat law_step. Qed.
(** All but the list 5 are alive, held by the enumerator; the caller has it and the list 6 *)
Example history_state : match do_ops 4 nothing history with
  | Ok s => map frees (rs_heap s) = [0; 0; 0; 0; 0; 1; 0] /\ map refs (rs_heap s) = [5; 1; 1; 1; 1; 0; 2]%Z /\ rs_own s = [6; 3]
  | _ => False end.
Proof. vm_compute. repeat split. Qed.
(** Then dropping the enumerator and the list frees everything once. *)
Example history_end : lawful kinds 4 nothing (history ++ [Unref 3; Unref 6]) /\
  match do_ops 4 nothing (history ++ [Unref 3; Unref 6]) with
  | Ok s => rs_own s = [] /\ map frees (rs_heap s) = [1; 1; 1; 1; 1; 1; 1]
  | _ => False end.
Proof.
  split; [|vm_compute; repeat split]. unfold history. cbn [app database_new object_new enumerator_new set_list]. repeat law_step.
Qed.
(** One reference dropped twice: not lawful, and undefined. *)
Example twice : do_ops 4 nothing [New; Unref 0; Unref 0] = UB /\ ~ lawful kinds 4 nothing [New; Unref 0; Unref 0].
Proof.
  split; [reflexivity|]. intros (_ & H). specialize (H _ eq_refl) as (_ & H). specialize (H _ eq_refl) as (H & _). destruct H.
Qed.
(** Lists of networks: two pushes, then clear. *)
Example clear_lawful : let os := [New] ++ object_new 1 0 ++ object_new 2 0 ++ object_new 3 0 ++ list_push 1 2 0 ++ list_push 1 3 1 ++ [Unref 2; Unref 3; RefSlot 1 0; Unref 2] ++ list_clear 1 [2; 3] in
  lawful (fun p => nth p [0; 2; 1; 1] 0) 3 nothing os /\
  match do_ops 3 nothing os with Ok s => map frees (rs_heap s) = [0; 0; 1; 1] /\ rs_own s = [1; 0] | _ => False end.
Proof.
  split; [|vm_compute; repeat split]. cbn [app object_new list_push list_clear list_remove flat_map]. repeat law_step.
Qed.
