(** Proofs about the resources of databases. *)
From Coq Require Import NArith ZArith List Bool Arith Lia Permutation ZifyBool ZifyNat ZifyN.
From Verif Require Import Base ModelStringPool ModelFile ModelDatabase LemmasSafe ModelHandle SpecHandle.
Import ListNotations.
Open Scope nat_scope.

Lemma remove_first fd l : ~ In fd l -> remove Nat.eq_dec fd (fd :: l) = l.
Proof. intros H. cbn. destruct (Nat.eq_dec fd fd); [|easy]. now apply notin_remove. Qed.

Local Arguments remove : simpl never.

Lemma db_open_magic f : match check_magic f with Ok _ => True | Err _ => db_open f = Err 1%Z | UB => False | Fuel => False end.
Proof.
  unfold db_open, check_magic. destruct (_ <? _)%N; [reflexivity|]. destruct (cstr_eqb _ _); [|reflexivity]. destruct (negb _); [reflexivity|easy].
Qed.

(** all that database_new can do *)
Definition taken (s : res) (fd : nat) : res := mkRes (fd :: r_fds s) (S (r_streams s)) (S (r_maps s)) (S (S (r_blocks s))) (S (S (r_ctx s))).
Lemma new_cases o f s r s' x : fresh s o -> usual o -> database_new o f s = Ok (r, s', x) ->
  (x = None /\ r <> 0%Z /\ s' = s /\ ((forall fd, ~ works o fd) \/ exists z, db_open f = Err z)) \/
  exists fd d, works o fd /\ fd <> 0 /\ db_open f = Ok d /\ x = Some (mkHandle (Some fd) true true, d) /\ r = 0%Z /\ s' = taken s fd.
Proof.
  intros F [U0 U1]. destruct o as [oc od of ol om oa op], s as [fds st mp bl cx]. unfold fresh, usual, database_new, works in *. cbn in *.
  destruct oc; cbn.
  2:{ injection 1 as <- <- <-. left. repeat split; try discriminate. left. intros fd. discriminate. }
  unfold open_database, clone_handle. cbn. destruct od as [fd|]; cbn.
  2:{ injection 1 as <- <- <-. left. repeat split; try discriminate. left. intros fd. discriminate. }
  specialize (F fd eq_refl). destruct (Nat.eqb_spec fd 0) as [->|Z0]; [easy|].
  destruct U1 as [U1| ->]; [discriminate|]. cbn. pose proof (db_open_magic f) as M.
  destruct (check_magic f) as [v|z| |]; try easy; cbn.
  2:{ unfold free_database; cbn; rewrite remove_first by assumption. injection 1 as <- <- <-. left. repeat split; try discriminate. eauto. }
  unfold map_database. cbn.
  destruct ol; cbn. 2:{ unfold free_database; cbn; rewrite remove_first by assumption. injection 1 as <- <- <-. left. repeat split; try discriminate. left. intros fd'. discriminate. }
  destruct om; cbn. 2:{ unfold free_database; cbn; rewrite remove_first by assumption. injection 1 as <- <- <-. left. repeat split; try discriminate. left. intros fd'. discriminate. }
  destruct oa; cbn. 2:{ unfold free_database; cbn; rewrite remove_first by assumption. injection 1 as <- <- <-. left. repeat split; try discriminate. left. intros fd'. discriminate. }
  unfold read_header. destruct (db_open f) as [d|z| |]; cbn; try easy.
  - destruct op; cbn.
    + injection 1 as <- <- <-. right. exists fd, d. repeat split; auto.
    + unfold free_database; cbn; rewrite remove_first by assumption. injection 1 as <- <- <-. left. repeat split; try discriminate. left. intros fd'. discriminate.
  - unfold free_database; cbn; rewrite remove_first by assumption. injection 1 as <- <- <-. left. repeat split; try discriminate. eauto.
Qed.

Lemma new_safe o f s : (flen f < 2 ^ 63)%N -> (flen f < 8 \/ 4192 <= flen f)%N -> exists r s' x, database_new o f s = Ok (r, s', x).
Proof.
  intros L S0. unfold database_new. destruct (negb (o_calloc o)); [eauto|].
  unfold open_database. destruct (clone_handle _ _ _) as [[r h] s1]. destruct (negb _); [cbn; eauto|].
  pose proof (db_open_magic f) as M. destruct (check_magic f) as [v|z| |]; try easy; [|cbn; eauto].
  destruct (map_database _ _ _) as [[r2 h2] s2]. destruct (negb _); [cbn; eauto|]. unfold read_header.
  destruct (open_safe f L S0) as [-> | [d ->]]; [cbn; eauto|]. destruct (o_pool o); cbn; eauto.
Qed.

Lemma failed o f s r s' : fresh s o -> usual o -> database_new o f s = Ok (r, s', None) -> r <> 0%Z /\ s' = s.
Proof. intros F U E. destruct (new_cases _ _ _ _ _ _ F U E) as [(_ & A & B & _)|(fd & d & _ & _ & _ & X & _)]; [now split|discriminate]. Qed.

Lemma opened o f s fd d : works o fd -> fd <> 0 -> db_open f = Ok d ->
  exists h s', database_new o f s = Ok (0%Z, s', Some (h, d)) /\
    r_fds s' = fd :: r_fds s /\ (~ In fd (r_fds s) -> free_database h s' = s).
Proof.
  intros -> Z0 E. exists (mkHandle (Some fd) true true), (taken s fd). destruct s as [fds st mp bl cx].
  unfold database_new, open_database, clone_handle. cbn. destruct (Nat.eqb_spec fd 0) as [->|_]; [easy|]. cbn.
  pose proof (db_open_magic f) as M. destruct (check_magic f) as [v|z| |]; try easy; [|congruence]. cbn.
  unfold read_header. rewrite E. cbn. split; [reflexivity|]. split; [reflexivity|].
  intros F. unfold free_database, taken. cbn [h_data h_pool h_f r_fds r_streams r_maps r_blocks r_ctx pred]. now rewrite remove_first.
Qed.

Lemma succeeds o f s r s' h d : fresh s o -> usual o -> database_new o f s = Ok (r, s', Some (h, d)) -> r = 0%Z /\ db_open f = Ok d /\ exists fd, works o fd /\ h_f h = Some fd.
Proof.
  intros F U E. destruct (new_cases _ _ _ _ _ _ F U E) as [(A & _)|(fd & d' & W & _ & D & X & R & _)]; [discriminate|].
  injection X as -> ->. repeat split; auto. exists fd. now split.
Qed.

(** ** Histories *)
Lemma take_nth_perm {A} : forall (l : list A) i x r, take_nth i l = Some (x, r) -> Permutation l (x :: r).
Proof.
  induction l as [|y l IH]; intros [|i] x r E; cbn in E; try discriminate.
  - injection E as <- <-. apply Permutation_refl.
  - destruct (take_nth i l) as [[z q]|] eqn:T; [|discriminate]. injection E as <- <-. rewrite (IH _ _ _ T). apply perm_swap.
Qed.

Lemma remove_perm fd : forall l r, NoDup l -> Permutation l (fd :: r) -> Permutation (remove Nat.eq_dec fd l) r.
Proof.
  intros l r N P. assert (N' : NoDup (fd :: r)) by (eapply Permutation_NoDup; eauto).
  apply NoDup_Permutation.
  - clear P N'. induction N as [|x l H N IH]; unfold remove; fold (remove Nat.eq_dec); [constructor|]. destruct (Nat.eq_dec fd x); [exact IH|]. constructor; [|exact IH].
    intros C. now apply in_remove in C.
  - now inversion N'.
  - intros x. inversion N' as [|? ? H1 H2]; subst. split; intros H.
    + apply in_remove in H as [H D]. apply (Permutation_in _ P) in H. destruct H; congruence.
    + apply in_in_remove; [congruence|]. apply (Permutation_in _ (Permutation_sym P)). now right.
Qed.

Definition whole (x : handle * db) : Prop := exists fd, fst x = mkHandle (Some fd) true true.
Definition inv (s0 s : res) (live : list (handle * db)) : Prop := accounted s0 s live /\ Forall whole live /\ NoDup (r_fds s).

Lemma descriptors_perm l l' : Permutation l l' -> Permutation (descriptors l) (descriptors l').
Proof. apply Permutation_flat_map. Qed.

Lemma step_inv s0 s live a s' live' : inv s0 s live -> match a with OpenDb o _ => fresh s o /\ usual o | CloseDb _ => True end ->
  dbstep s live a = Ok (s', live') -> inv s0 s' live'.
Proof.
  intros ((P & L & A & B & C & D) & W & N) Q E. destruct a as [o f|i]; cbn in E.
  - destruct Q as [F U]. destruct (database_new o f s) as [[[r s1] x]|z| |] eqn:E1; cbn in E; try discriminate. injection E as <- <-.
    destruct (new_cases _ _ _ _ _ _ F U E1) as [(-> & _ & -> & _)|(fd & d & Wo & Z0 & _ & -> & _ & ->)]; [repeat split; auto|].
    specialize (F fd). unfold works in Wo; rewrite Wo in F. specialize (F eq_refl). unfold inv, accounted, taken. cbn. repeat split; try lia.
    + now constructor.
    + f_equal. exact L.
    + constructor; [now exists fd|assumption].
    + now constructor.
  - destruct (take_nth i live) as [[x r]|] eqn:T; injection E as <- <-; [|repeat split; auto].
    apply take_nth_perm in T. pose proof (Permutation_length T) as LT. cbn in LT.
    assert (W' : Forall whole (x :: r)) by (rewrite Forall_forall in *; intros y Hy; apply W; eapply Permutation_in; [apply Permutation_sym|]; eauto).
    inversion W' as [|? ? [fd Hx] W1]; subst. pose proof (descriptors_perm _ _ T) as DT. destruct x as [h d]. cbn in Hx, DT. subst h. cbn in DT.
    pose proof (Permutation_length DT) as LD. change (length (descriptors live) = S (length (descriptors r))) in LD.
    assert (R : Permutation (remove Nat.eq_dec fd (r_fds s)) (descriptors r ++ r_fds s0)).
    { apply remove_perm; [assumption|]. rewrite P, DT. reflexivity. }
    unfold inv, accounted, free_database. cbn. repeat split; auto; try lia.
    assert (N2 : NoDup (fd :: descriptors r ++ r_fds s0)).
    { eapply Permutation_NoDup; [|exact N]. rewrite P, DT. reflexivity. }
    inversion N2. eapply Permutation_NoDup; [apply Permutation_sym|]; eauto.
Qed.

Lemma history l : forall s0 s live s' live', inv s0 s live -> possible s live l -> dbsteps s live l = Ok (s', live') -> inv s0 s' live'.
Proof.
  induction l as [|a l IH]; intros s0 s live s' live' V Q E; cbn in *.
  - injection E as <- <-. exact V.
  - destruct Q as [Q1 Q2]. destruct (dbstep s live a) as [[s1 live1]|z| |] eqn:E1; cbn in E; try discriminate.
    eapply IH; [|exact Q2|exact E]. eapply step_inv; eauto.
Qed.

Lemma history_accounted l s s' live : NoDup (r_fds s) -> possible s [] l -> dbsteps s [] l = Ok (s', live) ->
  accounted s s' live /\ NoDup (r_fds s') /\ (live = [] -> Permutation (r_fds s') (r_fds s) /\ s' = mkRes (r_fds s') (r_streams s) (r_maps s) (r_blocks s) (r_ctx s)).
Proof.
  intros N Q E. assert (V : inv s s' live).
  { eapply history; [|exact Q|exact E]. unfold inv, accounted. cbn. repeat split; auto; lia. }
  destruct V as (A & _ & N'). split; [exact A|]. split; [exact N'|]. intros ->. destruct A as (P & _ & A & B & C & D). cbn in *. split; [exact P|].
  destruct s'; cbn in *. f_equal; lia.
Qed.

(** ** What is not in order *)
Lemma zero_leaks o f s : o_calloc o = true -> o_dup o = Some 0 -> ~ In 0 (r_fds s) ->
  database_new o f s = Ok (1%Z, mkRes (0 :: r_fds s) (r_streams s) (r_maps s) (r_blocks s) (r_ctx s), None).
Proof.
  intros A B _. unfold database_new, open_database, clone_handle. rewrite A, B. cbn. unfold free_database. reflexivity.
Qed.
Lemma fdopen_leaks o f s fd : o_calloc o = true -> o_dup o = Some fd -> o_fdopen o = false ->
  database_new o f s = Ok (1%Z, mkRes (fd :: r_fds s) (r_streams s) (r_maps s) (r_blocks s) (r_ctx s), None).
Proof.
  intros A B C. unfold database_new, open_database, clone_handle. rewrite A, B, C. cbn. destruct (fd =? 0); cbn; unfold free_database; reflexivity.
Qed.
