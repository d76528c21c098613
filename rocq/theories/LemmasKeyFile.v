(** Proofs about the file of the public key (C89). *)
From Coq Require Import NArith ZArith List Bool Arith Lia.
From Verif Require Import Base LemmasBase ModelDatabase ModelVerify ModelKeyFile SpecKeyFile LemmasVerify.
Import ListNotations.
Open Scope nat_scope.
Local Opaque BUFSIZ.

Section Key.
Variable pem : list N -> verifier * nat.
Variable d : db.
Variable file : list N.
Hypothesis D : db_open file = Ok d.
Notation perform := (perform pem d).
Notation performs := (performs pem d).

Lemma verify_bool k : exists b, as_bool (verify d k) = Ok (Bool b) /\ (b = true <-> verify d k = Ok 0%Z).
Proof using D.
  unfold as_bool. destruct (verify_total file d k D) as [-> | [-> | ->]]; cbn [bind]; eexists; (split; [reflexivity|]); cbn;
  split; intros H; try reflexivity; try discriminate; exfalso; congruence.
Qed.
Lemma verify_at_fst c o : fst (verify_at pem d c o) = verify d (fst (pem (skipn o c))).
Proof. unfold verify_at. now destruct (pem (skipn o c)). Qed.
Lemma buffered_le o n size : o <= size -> buffered o n size <= size.
Proof. unfold buffered. lia. Qed.
Lemma BUFSIZ_pos : 1 <= BUFSIZ.
Proof. Local Transparent BUFSIZ. unfold BUFSIZ. lia. Qed.
Local Opaque BUFSIZ.
Lemma buffered_small n size : size <= BUFSIZ -> buffered 0 n size = size.
Proof.
  intros H. unfold buffered. set (m := Nat.max 1 _). assert (1 <= m) by (unfold m; lia).
  assert (BUFSIZ <= BUFSIZ * m) by (rewrite <- (Nat.mul_1_r BUFSIZ) at 1; apply Nat.mul_le_mono_l; assumption). lia.
Qed.

Lemma fd_upd l fd x fd' : nth fd' (upd l fd x) None = if (fd' =? fd) && (fd <? length l) then x else nth fd' l (@None (path * nat)).
Proof.
  destruct (Nat.eqb_spec fd' fd) as [-> | N]; cbn [andb]; [|apply nth_upd_neq; auto].
  destruct (Nat.ltb_spec fd (length l)) as [L|L]; [now apply nth_upd_eq|]. rewrite !nth_overflow; auto. now rewrite upd_length.
Qed.
Lemma fd_lt p fd x : fd_at p fd = Some x -> fd < length (p_fds p).
Proof. unfold fd_at. intros H. destruct (Nat.lt_ge_cases fd (length (p_fds p))) as [L|L]; [exact L|]. rewrite nth_overflow in H by exact L. discriminate. Qed.

(** One step never raises undefined behaviour, keeps the files, and keeps the process sane *)
Lemma perform_ok p a : sane p -> exists p' s, perform p a = Ok (p', s) /\ p_files p' = p_files p /\ sane p'.
Proof using D.
  intros W. 
  assert (U : forall fd f o n st, fd_at p fd = Some (f, o) -> (exists c, p_files p f = Some c /\ n <= length c) ->
              sane (mkProcess (p_files p) (upd (p_fds p) fd (Some (f, n))) st)).
  { intros fd f o n st A (c & C & L) fd' f' o' H. unfold fd_at in H. cbn [p_fds p_files] in *. rewrite fd_upd in H.
    destruct (_ && _); [|exact (W _ _ _ H)]. assert (X : f = f' /\ n = o') by (split; congruence). destruct X as [<- <-]. eauto. }
  destruct a as [f|fd n|fd|fd|fd|f]; cbn [ModelKeyFile.perform].
  - destruct (p_files p f) as [c|] eqn:F; [|eauto 6]. do 2 eexists. split; [reflexivity|]. split; [reflexivity|].
    intros fd' f' o' H. unfold fd_at in H. cbn [p_fds p_files] in *.
    destruct (Nat.lt_ge_cases fd' (length (p_fds p))) as [L|L].
    + rewrite app_nth1 in H by exact L. exact (W _ _ _ H).
    + rewrite app_nth2 in H by exact L. destruct (fd' - length (p_fds p)) as [|[|]]; cbn in H; try discriminate.
      assert (X : f = f' /\ 0 = o') by (split; congruence). destruct X as [<- <-]. exists c. split; [exact F|lia].
  - destruct (fd_at p fd) as [[f o]|] eqn:A; [|eauto 6]. destruct (W _ _ _ A) as (c & C & L). rewrite C.
    do 2 eexists. split; [reflexivity|]. split; [reflexivity|]. apply (U fd f o); [exact A|]. exists c. split; [exact C|now apply buffered_le].
  - destruct (fd_at p fd) as [[f o]|] eqn:A; [|eauto 6]. destruct (W _ _ _ A) as (c & C & L).
    do 2 eexists. split; [reflexivity|]. split; [reflexivity|]. apply (U fd f o); [exact A|]. exists c. split; [exact C|lia].
  - do 2 eexists. split; [reflexivity|]. split; [reflexivity|]. intros fd' f' o' H. unfold fd_at in H. cbn [p_fds p_files set_fd] in *.
    rewrite fd_upd in H. destruct (_ && _); [discriminate|exact (W _ _ _ H)].
  - destruct (fd_at p fd) as [[f o]|] eqn:A; [|eauto 6]. destruct (W _ _ _ A) as (c & C & L). rewrite C.
    unfold verify_at. destruct (pem (skipn o c)) as [k n]. destruct (verify_bool k) as (b & B & _). rewrite B. cbn [bind].
    do 2 eexists. split; [reflexivity|]. split; [reflexivity|]. apply (U fd f o); [exact A|]. exists c. split; [exact C|now apply buffered_le].
  - destruct (p_files p f) as [c|] eqn:F; [|eauto 6]. rewrite verify_at_fst. destruct (verify_bool (fst (pem (skipn 0 c)))) as (b & B & _).
    rewrite B. cbn [bind]. eauto 6.
Qed.
Lemma performs_ok l : forall p, sane p -> exists p' ss, performs p l = Ok (p', ss) /\ p_files p' = p_files p /\ sane p'.
Proof using D.
  induction l as [|a l IH]; intros p W; cbn [ModelKeyFile.performs]; [eauto 6|].
  destruct (perform_ok p a W) as (p1 & s & -> & F1 & W1). cbn [bind]. destruct (IH p1 W1) as (p2 & ss & -> & F2 & W2). cbn [bind].
  exists p2, (s :: ss). split; [reflexivity|]. split; [congruence|exact W2].
Qed.

Theorem by_path p l f c : sane p -> p_files p f = Some c ->
  exists p' ss b, performs p l = Ok (p', ss) /\ perform p' (Verify_path f) = Ok (p', Bool b) /\ (b = true <-> signed_by pem d c).
Proof using D.
  intros W F. destruct (performs_ok l p W) as (p' & ss & P & F' & W'). exists p', ss. cbn [ModelKeyFile.perform].
  rewrite F', F, verify_at_fst. cbn [skipn]. destruct (verify_bool (fst (pem c))) as (b & B & H). rewrite B. cbn [bind].
  exists b. split; [exact P|]. split; [reflexivity|exact H].
Qed.

(** Verifying with a descriptor at an offset *)
Lemma verify_fd p fd f o c : fd_at p fd = Some (f, o) -> p_files p f = Some c ->
  exists b, perform p (Verify fd) = Ok (mkProcess (p_files p) (upd (p_fds p) fd (Some (f, buffered o (snd (pem (skipn o c))) (length c)))) (S (p_streams p)), Bool b) /\
    (b = true <-> verify d (fst (pem (skipn o c))) = Ok 0%Z).
Proof using D.
  intros A C. cbn [ModelKeyFile.perform]. rewrite A, C. unfold verify_at. destruct (pem (skipn o c)) as [k n]. cbn [fst snd].
  destruct (verify_bool k) as (b & B & H). rewrite B. cbn [bind]. eauto.
Qed.
Theorem freshly p l f c : sane p -> p_files p f = Some c ->
  exists p' ss p2 b, performs p l = Ok (p', ss) /\
    performs p' [Open f; Verify (length (p_fds p'))] = Ok (p2, [Silent; Bool b]) /\ (b = true <-> signed_by pem d c).
Proof using D.
  intros W F. destruct (performs_ok l p W) as (p' & ss & P & F' & W'). exists p', ss. cbn [ModelKeyFile.performs].
  assert (O : perform p' (Open f) = Ok (mkProcess (p_files p') (p_fds p' ++ [Some (f, 0)]) (p_streams p'), Silent)).
  { cbn [ModelKeyFile.perform]. now rewrite F', F. }
  rewrite O. cbn [bind]. set (p1 := mkProcess _ _ _).
  destruct (verify_fd p1 (length (p_fds p')) f 0 c) as (b & B & H).
  - unfold fd_at, p1. cbn [p_fds]. rewrite app_nth2 by lia. now rewrite Nat.sub_diag.
  - unfold p1. cbn [p_files]. now rewrite F'.
  - rewrite B. cbn [bind]. do 2 eexists. split; [exact P|]. split; [reflexivity|exact H].
Qed.
Theorem found p fd p' : sane p -> perform p (Verify fd) = Ok (p', Bool true) ->
  exists f o c, fd_at p fd = Some (f, o) /\ p_files p f = Some c /\ verify d (fst (pem (skipn o c))) = Ok 0%Z.
Proof using D.
  intros W P. destruct (fd_at p fd) as [[f o]|] eqn:A; [|cbn [ModelKeyFile.perform] in P; rewrite A in P; exfalso; congruence].
  destruct (W _ _ _ A) as (c & C & L). destruct (verify_fd p fd f o c A C) as (b & B & H). rewrite B in P.
  assert (b = true) by congruence. subst b. exists f, o, c. split; [reflexivity|]. split; [exact C|]. now apply H.
Qed.

(** The file is at its end after it was used *)
Lemma at_end p fd f c : fd_at p fd = Some (f, length c) -> p_files p f = Some c -> no_key_in_nothing pem ->
  exists p', perform p (Verify fd) = Ok (p', Bool false).
Proof using D.
  intros A C N. destruct (verify_fd p fd f _ c A C) as (b & B & H). rewrite skipn_all in H. rewrite B. eexists. f_equal. f_equal. f_equal.
  destruct b; [|reflexivity]. exfalso. destruct H as [H _]. specialize (H eq_refl). unfold verify in H. unfold no_key_in_nothing in N. rewrite N in H. cbn [negb] in H. congruence.
Qed.
Theorem not_again p fd f c a : sane p -> fd_at p fd = Some (f, 0) -> p_files p f = Some c -> length c <= BUFSIZ -> no_key_in_nothing pem ->
  (a = Verify fd \/ exists n, a = Read fd n) ->
  exists p1 s1 p2, perform p a = Ok (p1, s1) /\ perform p1 (Verify fd) = Ok (p2, Bool false).
Proof using D.
  intros W A C L N [-> | [n ->]].
  - destruct (verify_fd p fd f 0 c A C) as (b & B & _). rewrite B. do 2 eexists.
    match goal with |- exists p2, Ok (?q, _) = _ /\ _ => destruct (at_end q fd f c) as (p2 & P2) end.
    + unfold fd_at. cbn [p_fds]. rewrite fd_upd, Nat.eqb_refl. rewrite (proj2 (Nat.ltb_lt _ _) (fd_lt _ _ _ A)). cbn [andb].
      now rewrite buffered_small.
    + exact C.
    + exact N.
    + exists p2. split; [reflexivity|exact P2].
  - cbn [ModelKeyFile.perform]. rewrite A, C. do 2 eexists.
    match goal with |- exists p2, Ok (?q, _) = _ /\ _ => destruct (at_end q fd f c) as (p2 & P2) end.
    + unfold fd_at, set_fd. cbn [p_fds]. rewrite fd_upd, Nat.eqb_refl. rewrite (proj2 (Nat.ltb_lt _ _) (fd_lt _ _ _ A)). cbn [andb].
      now rewrite buffered_small.
    + exact C.
    + exact N.
    + exists p2. split; [reflexivity|exact P2].
Qed.
Theorem again p fd f o c : sane p -> fd_at p fd = Some (f, o) -> p_files p f = Some c ->
  exists p' b, performs p [Seek fd; Verify fd] = Ok (p', [Silent; Bool b]) /\ (b = true <-> signed_by pem d c).
Proof using D.
  intros W A C. cbn [ModelKeyFile.performs].
  assert (O : perform p (Seek fd) = Ok (set_fd p fd (Some (f, 0)), Silent)) by (cbn [ModelKeyFile.perform]; now rewrite A).
  rewrite O. cbn [bind].
  destruct (verify_fd (set_fd p fd (Some (f, 0))) fd f 0 c) as (b & B & H).
  - unfold fd_at, set_fd. cbn [p_fds]. rewrite fd_upd, Nat.eqb_refl. now rewrite (proj2 (Nat.ltb_lt _ _) (fd_lt _ _ _ A)).
  - exact C.
  - rewrite B. cbn [bind]. do 2 eexists. split; [reflexivity|exact H].
Qed.
Theorem leaks p fd f o n : sane p -> fd_at p fd = Some (f, o) ->
  exists p' ss, performs p (repeat (Verify fd) n) = Ok (p', ss) /\ p_streams p' = p_streams p + n.
Proof using D.
  revert p o. induction n as [|n IH]; intros p o W A; cbn [repeat ModelKeyFile.performs]; [exists p, []; split; [reflexivity|lia]|].
  destruct (W _ _ _ A) as (c & C & L). destruct (verify_fd p fd f o c A C) as (b & B & _). destruct (perform_ok p (Verify fd) W) as (p1 & s1 & P1 & _ & W1).
  rewrite P1 in B. rewrite P1. cbn [bind]. assert (E := f_equal (fun r => match r with Ok (q, _) => q | _ => p end) B). cbv beta iota in E.
  destruct (IH p1 (buffered o (snd (pem (skipn o c))) (length c)) W1) as (p2 & ss & -> & S2).
  - rewrite E. unfold fd_at. cbn [p_fds]. rewrite fd_upd, Nat.eqb_refl. now rewrite (proj2 (Nat.ltb_lt _ _) (fd_lt _ _ _ A)).
  - cbn [bind]. do 2 eexists. split; [reflexivity|]. rewrite S2, E. cbn [p_streams]. lia.
Qed.
End Key.
