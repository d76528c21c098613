(** Proofs about the replacement of the file of the database. *)
From Coq Require Import NArith ZArith List Bool Arith Lia ZifyBool ZifyNat.
From Verif Require Import Base LemmasBase ModelDatabase ModelVerify ModelDownload LemmasDownload ModelUpdate SpecUpdate ModelReplace SpecReplace.
Import ListNotations.
Open Scope nat_scope.

(** The file system *)
Lemma name_eqb_eq a b : name_eqb a b = true <-> a = b.
Proof.
  destruct a, b; cbn; split; try congruence.
  - now intros ->%Nat.eqb_eq.
  - intros [= ->]. apply Nat.eqb_refl.
Qed.
Lemma name_eqb_refl a : name_eqb a a = true. Proof. now apply name_eqb_eq. Qed.
Lemma name_eqb_neq a b : a <> b -> name_eqb a b = false.
Proof. intros H. destruct (name_eqb a b) eqn:E; auto. now apply name_eqb_eq in E. Qed.
Lemma find_unlink_eq s x : find (unlink s x) x = None.
Proof.
  unfold find, unlink. cbn. induction (dir s) as [|[y n] l IH]; cbn; auto.
  destruct (name_eqb y x) eqn:E; cbn; auto. now rewrite E.
Qed.
Lemma find_filter_neq l x y : x <> y ->
  List.find (fun e : name * nat => name_eqb (fst e) y) (filter (fun e => negb (name_eqb (fst e) x)) l) = List.find (fun e => name_eqb (fst e) y) l.
Proof.
  intros H. induction l as [|[z n] l IH]; cbn; auto.
  destruct (name_eqb z x) eqn:E; cbn.
  - apply name_eqb_eq in E. subst z. rewrite (name_eqb_neq x y H). exact IH.
  - destruct (name_eqb z y); auto.
Qed.
Lemma find_unlink_neq s x y : x <> y -> find (unlink s x) y = find s y.
Proof. intros H. unfold find, unlink. cbn [dir]. now rewrite find_filter_neq. Qed.
Lemma find_link_eq s x n : find (link s x n) x = Some n.
Proof. unfold find, link. cbn. now rewrite name_eqb_refl. Qed.
Lemma find_link_neq s x n y : x <> y -> find (link s x n) y = find s y.
Proof. intros H. unfold find, link. cbn [dir List.find fst]. rewrite (name_eqb_neq x y H). now rewrite find_filter_neq. Qed.
Lemma find_put s n i x : find (put s n i) x = find s x. Proof. reflexivity. Qed.
Lemma get_put_eq s n i : n < length (inodes s) -> get (put s n i) n = i.
Proof. intros H. unfold get, put. cbn. now apply nth_upd_eq. Qed.
Lemma get_put_neq s n i m : n <> m -> get (put s n i) m = get s m.
Proof. intros H. unfold get, put. cbn. now apply nth_upd_neq. Qed.
Lemma get_unlink s x m : get (unlink s x) m = get s m. Proof. reflexivity. Qed.
Lemma get_link s x n m : get (link s x n) m = get s m. Proof. reflexivity. Qed.

Lemma nth_error_upd {A} (l : list A) i v j : nth_error (upd l i v) j = if i =? j then match nth_error l i with Some _ => Some v | None => None end else nth_error l j.
Proof.
  revert i j. induction l as [|x l IH]; intros [|i] [|j]; cbn; auto. now destruct (i =? j).
Qed.
Lemma in_upd {A} (l : list A) i v x : In x (upd l i v) -> x = v \/ exists j, j <> i /\ nth_error l j = Some x.
Proof.
  intros [j H]%In_nth_error. rewrite nth_error_upd in H. destruct (i =? j) eqn:E.
  - destruct (nth_error l i); [left; congruence|discriminate].
  - right. exists j. split; [lia|auto].
Qed.
Lemma nth_error_snoc {A} (l : list A) v i x : nth_error (l ++ [v]) i = Some x -> nth_error l i = Some x \/ i = length l /\ x = v.
Proof.
  intros H. destruct (i <? length l) eqn:E.
  - left. rewrite nth_error_app1 in H by lia. auto.
  - right. rewrite nth_error_app2 in H by lia. destruct (i - length l) as [|m] eqn:M; [cbn in H|now destruct m].
    split; [lia|congruence].
Qed.

Section Replace.
  Variables (St : Type) (init : St) (decompress : St -> list N -> decompressed St).
  Variables (shown : Z -> bool) (k : verifier).
  Notation proc := (proc St).
  Notation pc := (pc St).
  Notation world := (world St).
  Notation decision := (decision St shown).
  Notation step := (step St init decompress shown k).
  Notation happen := (happen St init decompress shown k).
  Notation happens := (happens St init decompress shown k).
  Notation downloaded := (downloaded St init decompress shown k).
  Notation outcome_of := (outcome_of St init decompress shown k).
  Notation check j := (check_database shown k (timestamp j)).
  Notation try_mirrors j := (try_mirrors St init decompress (check j)).
  Notation receive := (receive St decompress).

  (** What comes after a transfer *)
  Definition conclude (j : job) (ms : list mirror) (r : file * transfer) : result :=
    match r with
    | (f, Raised) => Exception (content f)
    | (f, Broken_data) => try_mirrors j f ms
    | (f, Complete) =>
        match check j (content f) with
        | None => Exception (content f)
        | Some false => try_mirrors j (truncate f) ms
        | Some true => Returned (content f)
        end
    end.
  Lemma try_body j f cs b ms : try_mirrors j f (Body cs b :: ms) = conclude j ms (receive init f cs b).
  Proof. cbn [ModelDownload.try_mirrors]. unfold conclude. now destruct (receive init f cs b) as [g [| |]]. Qed.

  (** A process does what the functions of C48 and C64 do *)
  Definition sim (s : fs) (p : proc) : Prop :=
    let j := p_job p in
    let R := downloaded j in
    let d n := data (get s n) in
    j_rename j = true /\
    match p_pc p, p_tmp p with
    | Begin, None => True
    | Creating, None => decision j (p_seen p) = Creating
    | Crashed, None => decision j (p_seen p) = Crashed
    | Ended c, None =>
        decision j (p_seen p) = Ended c \/
        decision j (p_seen p) = Creating /\ (R = NotFound /\ c = 1%Z \/ c = 0%Z /\ exists f, R = Returned f)
    | Killed, _ => True
    | x, Some n =>
        decision j (p_seen p) = Creating /\
        match x with
        | Trying pos ms => R = try_mirrors j (mkFile (d n) pos) ms
        | Receiving y cs b pos ms => R = conclude j ms (receive y (mkFile (d n) pos) cs b)
        | Received pos ms => R = conclude j ms (mkFile (d n) pos, Complete)
        | Accepted => R = Returned (d n)
        | Moving => R = Returned (d n) /\ everyone (get s n) = true
        | Removing => R = NotFound
        | Ended c => R = Exception (d n) /\ c = raises j
        | _ => False
        end
    | _, _ => False
    end.

  (** What a step does to the file system *)
  Inductive moves (s : fs) (p : proc) : fs -> proc -> Prop :=
  | M_in p' : p_tmp p' = p_tmp p -> moves s p s p'
  | M_put n i p' : p_tmp p = Some n -> p_tmp p' = Some n -> moves s p (put s n i) p'
  | M_create p' : p_tmp p = None -> p_tmp p' = Some (length (inodes s)) -> moves s p (fst (create s Tmp false)) p'
  | M_move n p' : p_tmp p = Some n -> p_pc p = Moving -> p_pc p' = Ended 0 -> p_tmp p' = None -> p_job p' = p_job p ->
      moves s p (link (unlink s (Tmp n)) The_db n) p'
  | M_remove n p' : p_tmp p = Some n -> p_tmp p' = None -> p_pc p = Removing -> moves s p (unlink s (Tmp n)) p'.

  Lemma decide_cases j d : decide St shown j d = Creating \/ exists c, decide St shown j d = Ended c.
  Proof. unfold decide. repeat match goal with |- context [if ?b then _ else _] => destruct b end; eauto. Qed.
  Lemma decision_cases j i : decision j i = Creating \/ decision j i = Crashed \/ exists c, decision j i = Ended c.
  Proof.
    unfold ModelReplace.decision. destruct (py_open (j_enoent j) i); eauto.
    - destruct (decide_cases j (Some d)); eauto.
    - destruct (decide_cases j None); eauto.
  Qed.

  Ltac fin := eauto using M_in, M_put, M_create, M_move, M_remove.
  Lemma step_moves s p s' p' : sim s p -> step s p = (s', p') -> moves s p s' p'.
  Proof.
    destruct p as [j seen tmp x]. unfold sim, ModelReplace.step, to, over. cbn [p_job p_seen p_tmp p_pc].
    intros (Rn & H) E.
    destruct x; destruct tmp as [n|]; try contradiction; try (now destruct H); try (injection E as <- <-; now apply M_in).
    - (* Creating *) injection E as <- <-. now apply M_create.
    - destruct ms as [|[c| |cs b] ms]; injection E as <- <-; try (now apply M_in). now apply (M_put _ _ n).
    - destruct chunks as [|c cs]; [injection E as <- <-; now apply M_in|].
      destruct (length c =? 0); [injection E as <- <-; now apply M_in|].
      destruct (decompress s0 c) as [x' buf| |]; try (injection E as <- <-; now apply M_in).
      destruct (length buf =? 0); injection E as <- <-; [now apply M_in|now apply (M_put _ _ n)].
    - destruct (find s (Tmp n)) as [m|]; [|injection E as <- <-; now apply M_in].
      destruct (check j (data (get s m))) as [[|]|]; injection E as <- <-; try (now apply M_in). now apply (M_put _ _ n).
    - injection E as <- <-. now apply (M_put _ _ n).
    - rewrite Rn in E. injection E as <- <-. now apply (M_move _ _ n).
    - injection E as <- <-. now apply (M_remove _ _ n).
  Qed.

  Lemma set_data_get s n d : n < length (inodes s) -> data (get (set_data s n d) n) = d.
  Proof. intros H. unfold set_data. now rewrite get_put_eq. Qed.
  Lemma step_sim s p s' p' : sim s p ->
    (forall n, p_tmp p = Some n -> find s (Tmp n) = Some n /\ n < length (inodes s)) ->
    step s p = (s', p') -> sim s' p'.
  Proof.
    destruct p as [j seen tmp x]. unfold sim at 1, ModelReplace.step, to, over. cbn [p_job p_seen p_tmp p_pc].
    intros (Rn & H) O E.
    assert (Keep : forall c, x = Ended c \/ x = Crashed \/ x = Killed -> (s, mkProc j seen tmp x) = (s', p') -> sim s' p').
    { intros c _ [= <- <-]. unfold sim. cbn [p_job p_seen p_tmp p_pc]. split; [exact Rn|exact H]. }
    destruct x; destruct tmp as [n|]; try contradiction; try (now destruct H); try (apply (Keep code); [auto 3|exact E]); try (apply (Keep 0%Z); [auto 3|exact E]); clear Keep;
      try (match type of H with _ /\ _ => destruct H as [Dc H] end); try destruct (O n eq_refl) as [Fn Ln]; clear O.
    - (* Begin *) injection E as <- <-. unfold sim. cbn [p_job p_seen p_tmp p_pc]. split; auto.
      destruct (decision_cases j (at_path s)) as [D|[D|[c D]]]; rewrite D; auto.
    - (* Creating *) injection E as <- <-. unfold sim. cbn [p_job p_seen p_tmp p_pc]. split; [exact Rn|]. split; [exact H|].
      unfold get, link. cbn [inodes]. rewrite app_nth2 by lia. rewrite Nat.sub_diag. reflexivity.
    - (* Trying *) destruct ms as [|[c| |cs b] ms]; injection E as <- <-; unfold sim; cbn [p_job p_seen p_tmp p_pc]; (split; [exact Rn|]); (split; [exact Dc|]).
      + exact H.
      + rewrite set_data_get by exact Ln. exact H.
      + split; auto.
      + rewrite H. apply try_body.
    - (* Receiving *) destruct chunks as [|c cs].
      { injection E as <- <-. unfold sim; cbn [p_job p_seen p_tmp p_pc]; split; [exact Rn|]. destruct broken; cbn in H; auto. }
      cbn [ModelDownload.receive] in H. destruct (length c =? 0).
      { injection E as <- <-. unfold sim; cbn [p_job p_seen p_tmp p_pc]; split; [exact Rn|]. split; auto. }
      destruct (decompress s0 c) as [x' buf| |].
      + destruct (length buf =? 0); injection E as <- <-; unfold sim; cbn [p_job p_seen p_tmp p_pc]; (split; [exact Rn|]); (split; [exact Dc|]); auto.
        rewrite set_data_get by exact Ln. exact H.
      + injection E as <- <-. unfold sim; cbn [p_job p_seen p_tmp p_pc]; split; [exact Rn|]. split; auto.
      + injection E as <- <-. unfold sim; cbn [p_job p_seen p_tmp p_pc]; split; [exact Rn|]. split; auto.
    - (* Received *) rewrite Fn in E. unfold conclude in H. cbn [content] in H.
      destruct (check j (data (get s n))) as [[|]|]; injection E as <- <-; unfold sim; cbn [p_job p_seen p_tmp p_pc]; (split; [exact Rn|]); (split; [exact Dc|]); auto.
      rewrite set_data_get by exact Ln. exact H.
    - (* Accepted *) injection E as <- <-. unfold sim; cbn [p_job p_seen p_tmp p_pc]; split; [exact Rn|]. split; [exact Dc|].
      rewrite get_put_eq by exact Ln. auto.
    - (* Moving *) rewrite Rn in E. injection E as <- <-. unfold sim; cbn [p_job p_seen p_tmp p_pc]; split; [exact Rn|].
      right. split; [exact Dc|]. right. destruct H. eauto.
    - (* Removing *) injection E as <- <-. unfold sim; cbn [p_job p_seen p_tmp p_pc]; split; [exact Rn|]. right. auto.
  Qed.

  Lemma sim_frame s s' q : sim s q -> (forall n, p_tmp q = Some n -> get s' n = get s n) -> sim s' q.
  Proof.
    unfold sim. intros (Rn & H) F. split; [exact Rn|]. destruct (p_tmp q) as [n|]; [|exact H].
    rewrite (F n eq_refl). exact H.
  Qed.

  (** What always holds *)
  Record inv (i0 : option (list N)) (w : world) : Prop := mkInv {
    iv_dir : forall x n, find (w_fs w) x = Some n -> n < length (inodes (w_fs w));
    iv_tmp : forall n m, find (w_fs w) (Tmp n) = Some m -> exists p, In p (w_procs w) /\ p_tmp p = Some n;
    iv_own : forall p n, In p (w_procs w) -> p_tmp p = Some n ->
      find (w_fs w) (Tmp n) = Some n /\ find (w_fs w) The_db <> Some n /\ ~ In n (w_readers w);
    iv_apart : forall i j p q n, nth_error (w_procs w) i = Some p -> nth_error (w_procs w) j = Some q ->
      p_tmp p = Some n -> p_tmp q = Some n -> i = j;
    iv_readers : forall n, In n (w_readers w) -> n < length (inodes (w_fs w));
    iv_db : forall n, find (w_fs w) The_db = Some n ->
      i0 = Some (data (get (w_fs w) n)) /\ everyone (get (w_fs w) n) = true \/
      exists p, In p (w_procs w) /\ p_tmp p = None /\ p_pc p = Ended 0 /\ downloaded (p_job p) = Returned (data (get (w_fs w) n)) /\
        everyone (get (w_fs w) n) = true;
    iv_none : find (w_fs w) The_db = None -> i0 = None;
    iv_sim : forall p, In p (w_procs w) -> sim (w_fs w) p
  }.

  Lemma first_inv i0 : inv i0 (first_world St i0).
  Proof.
    split; destruct i0 as [f|]; cbn; try contradiction; try discriminate; intros; try (now destruct i); try (now destruct i0); auto.
    - unfold find in H. cbn in H. destruct (match x with The_db => true | Tmp _ => false end); [injection H as <-; lia|discriminate].
    - unfold find in H. cbn in H. injection H as <-. auto.
  Qed.

  Lemma moves_keeps s p s' p' m : moves s p s' p' -> m < length (inodes s) -> p_tmp p <> Some m -> get s' m = get s m.
  Proof.
    intros M L T. destruct M as [p' E|n i p' E E'|p' E E'|n p' E _ _ _ _|n p' E E' _]; auto.
    - apply get_put_neq. congruence.
    - unfold create, get, link. cbn. now rewrite app_nth1.
  Qed.
  Lemma moves_length s p s' p' : moves s p s' p' -> length (inodes s) <= length (inodes s').
  Proof.
    intros M. destruct M as [p' E|n i p' E E'|p' E E'|n p' E _ _ _ _|n p' E E' _]; cbn; try lia.
    - rewrite upd_length. lia.
    - rewrite app_length. lia.
  Qed.

  Section Move.
    Variables (s : fs) (p : proc) (s' : fs) (p' : proc).
    Hypothesis M : moves s p s' p'.
    Hypothesis Dir : forall x n, find s x = Some n -> n < length (inodes s).
    Hypothesis Own : forall n, p_tmp p = Some n -> find s (Tmp n) = Some n /\ find s The_db <> Some n.

    Lemma m_dir x n : find s' x = Some n -> n < length (inodes s').
    Proof using init decompress shown k M Dir Own.
      destruct M as [p' E|m i p' E E'|p' E E'|m p' E _ _ _ _|m p' E E' _].
      - apply Dir.
      - rewrite find_put. intros H%Dir. cbn. rewrite upd_length. exact H.
      - unfold create. cbn [fst]. cbn [link inodes]. rewrite app_length. cbn [length].
        destruct (name_eqb (Tmp (length (inodes s))) x) eqn:Q.
        + apply name_eqb_eq in Q. subst x. rewrite find_link_eq. intros [= <-]. lia.
        + rewrite find_link_neq by (intros <-; now rewrite name_eqb_refl in Q). change (find s x = Some n -> n < length (inodes s) + 1).
          intros H%Dir. lia.
      - cbn [link unlink inodes]. destruct (name_eqb The_db x) eqn:Q.
        + apply name_eqb_eq in Q. subst x. rewrite find_link_eq. intros [= <-]. apply Own in E as [H _]. eauto.
        + rewrite find_link_neq by (intros <-; discriminate). destruct (name_eqb (Tmp m) x) eqn:Q2.
          * apply name_eqb_eq in Q2. subst x. now rewrite find_unlink_eq.
          * rewrite find_unlink_neq by (intros <-; now rewrite name_eqb_refl in Q2). apply Dir.
      - cbn [unlink inodes]. destruct (name_eqb (Tmp m) x) eqn:Q2.
        + apply name_eqb_eq in Q2. subst x. now rewrite find_unlink_eq.
        + rewrite find_unlink_neq by (intros <-; now rewrite name_eqb_refl in Q2). apply Dir.
    Qed.
    Lemma m_tmp n m : find s' (Tmp n) = Some m -> p_tmp p' = Some n \/ find s (Tmp n) = Some m /\ p_tmp p <> Some n.
    Proof using init decompress shown k M Dir Own.
      destruct (p_tmp p) as [t|] eqn:T.
      - destruct (Nat.eq_dec t n) as [->|D].
        + destruct M as [p' E|x i p' E E'|p' E E'|x p' E _ _ _ _|x p' E E' _]; rewrite T in E; intros H; try congruence; auto.
          * left. congruence.
          * injection E as <-. rewrite find_link_neq in H by discriminate. now rewrite find_unlink_eq in H.
          * injection E as <-. now rewrite find_unlink_eq in H.
        + destruct M as [p' E|x i p' E E'|p' E E'|x p' E _ _ _ _|x p' E E' _]; rewrite T in E; intros H; try congruence.
          * right. split; [exact H|congruence].
          * right. split; [exact H|congruence].
          * right. injection E as <-. rewrite find_link_neq, find_unlink_neq in H by congruence. split; [exact H|congruence].
          * right. injection E as <-. rewrite find_unlink_neq in H by congruence. split; [exact H|congruence].
      - destruct M as [p' E|x i p' E E'|p' E E'|x p' E _ _ _ _|x p' E E' _]; rewrite T in E; intros H; try congruence.
        + right. split; [exact H|congruence].
        + unfold create in H. cbn [fst] in H. destruct (Nat.eq_dec (length (inodes s)) n) as [<-|D]; [auto|].
          rewrite find_link_neq in H by congruence. right. split; [exact H|congruence].
    Qed.
    Lemma m_own n : p_tmp p' = Some n -> find s' (Tmp n) = Some n /\ find s' The_db <> Some n /\ (p_tmp p = Some n \/ n = length (inodes s)).
    Proof using init decompress shown k M Dir Own.
      destruct M as [p' E|x i p' E E'|p' E E'|x p' E _ _ E' _|x p' E E' _]; intros H.
      - rewrite E in H. destruct (Own n H). auto.
      - rewrite E' in H. injection H as ->. destruct (Own n E). auto.
      - rewrite E' in H. injection H as <-. unfold create. cbn [fst]. rewrite find_link_eq, find_link_neq by discriminate.
        split; [reflexivity|]. split; [|auto]. intros X. change (find s The_db = Some (length (inodes s))) in X. apply Dir in X. lia.
      - congruence.
      - congruence.
    Qed.
    Lemma m_other n : p_tmp p <> Some n -> n < length (inodes s) ->
      find s' (Tmp n) = find s (Tmp n) /\ (find s' The_db = Some n -> find s The_db = Some n).
    Proof using init decompress shown k M Dir Own.
      intros T L. destruct M as [p' E|x i p' E E'|p' E E'|x p' E _ _ E' _|x p' E E' _]; auto.
      - unfold create. cbn [fst]. rewrite !find_link_neq by (discriminate || (intros [= X]; lia)). auto.
      - rewrite find_link_neq, find_unlink_neq by congruence. rewrite find_link_eq. split; [reflexivity|congruence].
      - rewrite !find_unlink_neq by congruence. auto.
    Qed.
    Lemma m_db n : find s' The_db = Some n -> find s The_db = Some n /\ get s' n = get s n \/
      p_tmp p = Some n /\ p_pc p = Moving /\ p_pc p' = Ended 0 /\ p_tmp p' = None /\ p_job p' = p_job p /\ get s' n = get s n.
    Proof using init decompress shown k M Dir Own.
      assert (K : find s The_db = Some n -> find s The_db = Some n /\ get s' n = get s n).
      { intros F. split; [exact F|]. apply (moves_keeps s p s' p'); eauto. intros T. now apply Own in T as [_ T]. }
      destruct M as [p' E|x i p' E E'|p' E E'|x p' E X1 X2 E' X3|x p' E E' _]; intros H.
      - left. auto.
      - left. auto.
      - left. apply K. unfold create in H. cbn [fst] in H. now rewrite find_link_neq in H by discriminate.
      - rewrite find_link_eq in H. injection H as ->. right. repeat split; auto.
      - left. apply K. now rewrite find_unlink_neq in H by discriminate.
    Qed.
    Lemma m_none : find s' The_db = None -> find s The_db = None.
    Proof using init decompress shown k M Dir Own.
      destruct M as [p' E|x i p' E E'|p' E E'|x p' E _ _ E' _|x p' E E' _]; auto.
      - unfold create. cbn [fst]. now rewrite find_link_neq by discriminate.
      - now rewrite find_link_eq.
      - now rewrite find_unlink_neq by discriminate.
    Qed.
  End Move.

  Lemma step_ended s p c : p_pc p = Ended c -> step s p = (s, p).
  Proof. intros H. unfold ModelReplace.step. rewrite H. now destruct (p_tmp p). Qed.

  Lemma step_inv i0 w i : inv i0 w -> inv i0 (happen w (Step i)).
  Proof.
    intros V. cbn [ModelReplace.happen]. destruct (nth_error (w_procs w) i) as [p|] eqn:P; [|exact V].
    destruct (step (w_fs w) p) as [s' p'] eqn:E.
    assert (Ip : In p (w_procs w)) by (now apply nth_error_In in P).
    pose proof (iv_sim _ _ V p Ip) as Sp.
    pose proof (step_moves _ _ _ _ Sp E) as M.
    pose proof (iv_dir _ _ V) as Dir.
    assert (Own : forall n, p_tmp p = Some n -> find (w_fs w) (Tmp n) = Some n /\ find (w_fs w) The_db <> Some n).
    { intros n T. destruct (iv_own _ _ V p n Ip T) as (A & B & _). auto. }
    assert (Others : forall j q n, j <> i -> nth_error (w_procs w) j = Some q -> p_tmp q = Some n -> p_tmp p <> Some n /\ n < length (inodes (w_fs w))).
    { intros j q n D Q T. split.
      - intros T'. apply D. eapply (iv_apart _ _ V); eauto.
      - destruct (iv_own _ _ V q n (nth_error_In _ _ Q) T) as (A & _). eauto. }
    assert (Pi : nth_error (upd (w_procs w) i p') i = Some p') by (rewrite nth_error_upd, Nat.eqb_refl, P; reflexivity).
    assert (Pj : forall j q, j <> i -> nth_error (w_procs w) j = Some q -> nth_error (upd (w_procs w) i p') j = Some q).
    { intros j q D Q. rewrite nth_error_upd. replace (i =? j) with false by (symmetry; apply Nat.eqb_neq; auto). exact Q. }
    split; cbn [w_fs w_procs w_readers].
    - exact (m_dir _ _ _ _ M Dir Own).
    - intros n m H. destruct (m_tmp _ _ _ _ M Dir Own _ _ H) as [T|[F T]].
      + exists p'. split; [|exact T]. now apply nth_error_In in Pi.
      + destruct (iv_tmp _ _ V _ _ F) as (q & [j Q]%In_nth_error & Tq). exists q. split; [|exact Tq].
        eapply nth_error_In, Pj; [|exact Q]. intros ->. rewrite P in Q. injection Q as <-. contradiction.
    - intros q n [->|(j & D & Q)]%in_upd T.
      + destruct (m_own _ _ _ _ M Dir Own _ T) as (A & B & C). split; [exact A|]. split; [exact B|].
        destruct C as [C| ->].
        * now destruct (iv_own _ _ V p n Ip C) as (_ & _ & X).
        * intros X%(iv_readers _ _ V). lia.
      + destruct (Others _ _ _ D Q T) as [T' L]. destruct (m_other _ _ _ _ M Dir Own _ T' L) as [A B].
        destruct (iv_own _ _ V q n (nth_error_In _ _ Q) T) as (X & Y & Z). rewrite A. split; [exact X|]. split; [|exact Z]. intros K. exact (Y (B K)).
    - intros a b q r n. rewrite !nth_error_upd, P.
      destruct (Nat.eqb_spec i a) as [<-|Da], (Nat.eqb_spec i b) as [<-|Db]; auto.
      + intros [= <-] Q T T'. exfalso. destruct (Others b r n (not_eq_sym Db) Q T') as [X L].
        destruct (m_own _ _ _ _ M Dir Own _ T) as (_ & _ & [C|C]); [contradiction|lia].
      + intros Q [= <-] T T'. exfalso. destruct (Others a q n (not_eq_sym Da) Q T) as [X L].
        destruct (m_own _ _ _ _ M Dir Own _ T') as (_ & _ & [C|C]); [contradiction|lia].
      + apply (iv_apart _ _ V).
    - intros n X%(iv_readers _ _ V). pose proof (moves_length _ _ _ _ M). lia.
    - intros n H. destruct (m_db _ _ _ _ M Dir Own _ H) as [[F G]|(T & X & Y & T' & J & G)].
      + rewrite G. destruct (iv_db _ _ V _ F) as [O|(q & [j Q]%In_nth_error & A & B & C)]; [auto|]. right. exists q. split; [|auto].
        destruct (Nat.eq_dec j i) as [->|D]; [|eapply nth_error_In, Pj; eauto].
        rewrite P in Q. injection Q as <-. rewrite (step_ended _ _ _ B) in E. injection E as <- <-. now apply nth_error_In in Pi.
      + right. exists p'. split; [now apply nth_error_In in Pi|]. split; [exact T'|]. split; [exact Y|]. rewrite J, G.
        unfold sim in Sp. rewrite X, T in Sp. tauto.
    - intros H. apply (iv_none _ _ V). exact (m_none _ _ _ _ M Dir Own H).
    - intros q [->|(j & D & Q)]%in_upd.
      + apply (step_sim (w_fs w) p); auto. intros n T. destruct (Own n T) as [A _]. split; [exact A|]. eauto.
      + apply (sim_frame (w_fs w)); [apply (iv_sim _ _ V); now apply nth_error_In in Q|]. intros n T.
        destruct (Others _ _ _ D Q T) as [T' L]. apply (moves_keeps _ _ _ _ n M L T').
  Qed.

  Lemma start_inv i0 w p : inv i0 w -> p_tmp p = None -> sim (w_fs w) p -> inv i0 (mkWorld (w_fs w) (w_procs w ++ [p]) (w_readers w)).
  Proof.
    intros V T Sp. split; cbn [w_fs w_procs w_readers]; try apply V.
    - intros n m H. destruct (iv_tmp _ _ V _ _ H) as (q & Q & X). exists q. split; [apply in_or_app; auto|exact X].
    - intros q n [Q|[<-|[]]]%in_app_or Tq; [exact (iv_own _ _ V q n Q Tq)|congruence].
    - intros a b q r n [Q|[-> ->]]%nth_error_snoc [R|[-> ->]]%nth_error_snoc; try congruence. now apply (iv_apart _ _ V).
    - intros n H. destruct (iv_db _ _ V _ H) as [O|(q & Q & X)]; [auto|]. right. exists q. split; [apply in_or_app; auto|exact X].
    - intros q [Q|[<-|[]]]%in_app_or; [now apply (iv_sim _ _ V)|exact Sp].
  Qed.

  Lemma kill_inv i0 w i p : inv i0 w -> nth_error (w_procs w) i = Some p -> (forall c, p_pc p <> Ended c) ->
    inv i0 (mkWorld (w_fs w) (upd (w_procs w) i (to p Killed)) (w_readers w)).
  Proof.
    intros V P Ne.
    assert (Pi : nth_error (upd (w_procs w) i (to p Killed)) i = Some (to p Killed)) by (rewrite nth_error_upd, Nat.eqb_refl, P; reflexivity).
    assert (Pj : forall j q, j <> i -> nth_error (w_procs w) j = Some q -> nth_error (upd (w_procs w) i (to p Killed)) j = Some q).
    { intros j q D Q. rewrite nth_error_upd. replace (i =? j) with false by (symmetry; apply Nat.eqb_neq; auto). exact Q. }
    pose proof (nth_error_In _ _ P) as Ip.
    split; cbn [w_fs w_procs w_readers]; try apply V.
    - intros n m H. destruct (iv_tmp _ _ V _ _ H) as (q & [j Q]%In_nth_error & X). destruct (Nat.eq_dec j i) as [->|D].
      + exists (to p Killed). split; [now apply nth_error_In in Pi|]. cbn. congruence.
      + exists q. split; [|exact X]. eapply nth_error_In, Pj; eauto.
    - intros q n [->|(j & D & Q)]%in_upd Tq.
      + exact (iv_own _ _ V p n Ip Tq).
      + exact (iv_own _ _ V q n (nth_error_In _ _ Q) Tq).
    - intros a b q r n. rewrite !nth_error_upd, P. destruct (Nat.eqb_spec i a) as [<-|Da], (Nat.eqb_spec i b) as [<-|Db]; auto.
      + intros [= <-] R T T'. exact (iv_apart _ _ V i b p r n P R T T').
      + intros Q [= <-] T T'. exact (iv_apart _ _ V a i q p n Q P T T').
      + apply (iv_apart _ _ V).
    - intros n H. destruct (iv_db _ _ V _ H) as [O|(q & [j Q]%In_nth_error & X)]; [auto|]. right. exists q. split; [|exact X].
      eapply nth_error_In, Pj; [|exact Q]. intros ->. rewrite P in Q. injection Q as <-. destruct X as (_ & X & _). now apply Ne in X.
    - intros q [->|(j & D & Q)]%in_upd; [|apply (iv_sim _ _ V); now apply nth_error_In in Q].
      pose proof (iv_sim _ _ V p Ip) as (Rn & _). split; [exact Rn|]. cbn. destruct (p_tmp p); exact Logic.I.
  Qed.

  Lemma happen_inv i0 w e : inv i0 w -> careful e -> inv i0 (happen w e).
  Proof.
    intros V C. destruct e as [j|pieces|i|i|].
    - apply start_inv; auto. split; [exact C|exact Logic.I].
    - destruct C.
    - now apply step_inv.
    - cbn [ModelReplace.happen]. destruct (nth_error (w_procs w) i) as [p|] eqn:P; [|exact V].
      destruct (p_pc p) eqn:X; try exact V; apply (kill_inv i0 w i p); auto; congruence.
    - cbn [ModelReplace.happen]. destruct (find (w_fs w) The_db) as [n|] eqn:F; [|exact V].
      split; cbn [w_fs w_procs w_readers]; try apply V.
      + intros p m Ip T. destruct (iv_own _ _ V p m Ip T) as (A & B & D). split; [exact A|]. split; [exact B|].
        intros [X|[<-|[]]]%in_app_or; contradiction.
      + intros m [X|[<-|[]]]%in_app_or; [now apply (iv_readers _ _ V)|]. exact (iv_dir _ _ V _ _ F).
  Qed.
  Lemma happens_inv i0 w l : inv i0 w -> Forall careful l -> inv i0 (happens w l).
  Proof. intros V H. revert w V. induction H as [|e l C _ IH]; intros w V; cbn; auto. apply IH. now apply happen_inv. Qed.

  (** Readers *)
  Lemma happen_keeps i0 w e n : inv i0 w -> careful e -> In n (w_readers w) ->
    get (w_fs (happen w e)) n = get (w_fs w) n /\ In n (w_readers (happen w e)).
  Proof.
    intros V C R. destruct e as [j|pieces|i|i|]; cbn [ModelReplace.happen].
    - auto.
    - auto.
    - destruct (nth_error (w_procs w) i) as [p|] eqn:P; [|auto]. destruct (step (w_fs w) p) as [s' p'] eqn:E. cbn [w_fs w_readers]. split; [|exact R].
      pose proof (nth_error_In _ _ P) as Ip. apply (moves_keeps _ _ _ _ n (step_moves _ _ _ _ (iv_sim _ _ V p Ip) E)); [now apply (iv_readers _ _ V)|].
      intros T. now destruct (iv_own _ _ V p n Ip T) as (_ & _ & X).
    - destruct (nth_error (w_procs w) i) as [p|]; [|auto]. destruct (p_pc p); auto.
    - destruct (find (w_fs w) The_db); [|auto]. cbn [w_fs w_readers]. split; [reflexivity|]. apply in_or_app. auto.
  Qed.
  Lemma happens_keeps i0 w l n : inv i0 w -> Forall careful l -> In n (w_readers w) ->
    get (w_fs (happens w l)) n = get (w_fs w) n.
  Proof.
    intros V H. revert w V. induction H as [|e l C _ IH]; intros w V R; cbn; auto.
    destruct (happen_keeps i0 w e n V C R) as [A B]. change (get (w_fs (happens (happen w e) l)) n = get (w_fs w) n).
    rewrite IH; auto. now apply happen_inv.
  Qed.

  Lemma downloaded_good j f : downloaded j = Returned f -> good k (j_dns j) f.
  Proof.
    intros (d & O & T & V)%download_checked. exists d. split; [exact O|]. split; [exact V|].
    intros v E Nz. unfold timestamp in T. rewrite E in T. auto.
  Qed.
  Lemma atomic i0 l : Forall careful l -> let w := happens (first_world St i0) l in
    at_path (w_fs w) = initially i0 \/
    exists p f, In p (w_procs w) /\ ended p 0 /\ downloaded (p_job p) = Returned f /\ at_path (w_fs w) = File f /\ good k (j_dns (p_job p)) f.
  Proof.
    intros C w. pose proof (happens_inv i0 _ l (first_inv i0) C) as V. fold w in V. unfold at_path.
    destruct (find (w_fs w) The_db) as [n|] eqn:F.
    - destruct (iv_db _ _ V n F) as [(E0 & _)|(p & Ip & _ & E & D & _)]; [left; now rewrite E0|]. right. exists p, (data (get (w_fs w) n)).
      split; [exact Ip|]. split; [exact E|]. split; [exact D|]. split; [reflexivity|]. now apply downloaded_good.
    - left. pose proof (iv_none _ _ V F) as E0. now rewrite E0.
  Qed.
  Lemma readable i0 l n : Forall careful l -> let w := happens (first_world St i0) l in
    find (w_fs w) The_db = Some n -> everyone (get (w_fs w) n) = true.
  Proof.
    intros C w F. pose proof (happens_inv i0 _ l (first_inv i0) C) as V. fold w in V.
    destruct (iv_db _ _ V n F) as [(_ & E)|(p & _ & _ & _ & _ & E)]; exact E.
  Qed.
  Lemma readers_kept i0 l l' n : Forall careful l -> Forall careful l' ->
    let w := happens (first_world St i0) l in In n (w_readers w) -> get (w_fs (happens w l')) n = get (w_fs w) n.
  Proof. intros C C' w R. apply (happens_keeps i0); auto. now apply happens_inv; [apply first_inv|]. Qed.

  (** Exit codes *)
  Lemma decision_outcome j i : match decision j i with
    | Ended c => outcome_of j i = Ok (mkUpdate c i)
    | Crashed => outcome_of j i = UB
    | Creating => outcome_of j i = Ok (match downloaded j with
                                       | Returned f => mkUpdate 0 (File f)
                                       | NotFound => mkUpdate 1 i
                                       | Exception _ => mkUpdate (raises j) i
                                       end)
    | _ => False
    end.
  Proof.
    unfold ModelReplace.decision, SpecReplace.outcome_of, update. destruct (py_open (j_enoent j) i); try reflexivity;
      unfold decide, handle_update, SpecReplace.downloaded, raises, timestamp; cbv zeta;
      repeat match goal with |- context [if ?b then @Ended _ _ else _] => destruct b; [reflexivity|] end;
      destruct (download _ _ _ _ _); reflexivity.
  Qed.
  Lemma exits i0 l p c : Forall careful l -> In p (w_procs (happens (first_world St i0) l)) -> ended p c ->
    exists u, outcome_of (p_job p) (p_seen p) = Ok u /\ exit_code u = c.
  Proof.
    intros C Ip E. pose proof (iv_sim _ _ (happens_inv i0 _ l (first_inv i0) C) p Ip) as (_ & H). unfold ended in E. rewrite E in H.
    pose proof (decision_outcome (p_job p) (p_seen p)) as O. destruct (p_tmp p) as [n|].
    - destruct H as (D & R & ->). rewrite D, R in O. rewrite O. eexists. split; reflexivity.
    - destruct H as [D|(D & [(R & ->)|(-> & f & R)])]; rewrite D in O.
      + rewrite O. eexists. split; reflexivity.
      + rewrite R in O. rewrite O. eexists. split; reflexivity.
      + rewrite R in O. rewrite O. eexists. split; reflexivity.
  Qed.
  Lemma crashes i0 l p : Forall careful l -> In p (w_procs (happens (first_world St i0) l)) -> p_pc p = Crashed ->
    outcome_of (p_job p) (p_seen p) = UB.
  Proof.
    intros C Ip E. pose proof (iv_sim _ _ (happens_inv i0 _ l (first_inv i0) C) p Ip) as (_ & H). rewrite E in H.
    pose proof (decision_outcome (p_job p) (p_seen p)) as O. destruct (p_tmp p) as [n|]; [now destruct H|]. now rewrite H in O.
  Qed.

  (** What a process has seen was there *)
  Lemma step_seen s p s' p' : step s p = (s', p') -> p_job p' = p_job p /\
    (p_pc p = Begin /\ p_seen p' = at_path s \/ p_pc p <> Begin /\ p_seen p' = p_seen p) /\ (p_pc p = Killed -> p' = p).
  Proof.
    destruct p as [j seen tmp x]. unfold ModelReplace.step, to, over. cbn [p_job p_seen p_tmp p_pc]. intros E.
    destruct x; try (injection E as <- <-; cbn; repeat split; auto; discriminate);
    try (injection E as <- <-; cbn; split; [reflexivity|]; split; [right; split; [discriminate|reflexivity]|discriminate]);
    destruct tmp as [n|]; try (injection E as <- <-; cbn; split; [reflexivity|]; split; [right; split; [discriminate|reflexivity]|congruence]);
    repeat match type of E with
    | (match ?l with [] => _ | _ => _ end) = _ => destruct l
    | (match ?l with HttpError _ => _ | _ => _ end) = _ => destruct l
    | (if ?b then _ else _) = _ => destruct b
    | (match ?d with Out _ _ => _ | _ => _ end) = _ => destruct d
    | (match ?d with Some _ => _ | None => _ end) = _ => destruct d
    | (let (_, _) := ?d in _) = _ => destruct d
    end; injection E as <- <-; cbn; (split; [reflexivity|]); (split; [right; split; [discriminate|reflexivity]|discriminate]).
  Qed.
  Lemma step_killed s p s' p' : step s p = (s', p') -> p_pc p' = Killed -> p_pc p = Killed.
  Proof.
    destruct p as [j seen tmp x]. unfold ModelReplace.step, to, over. cbn [p_job p_seen p_tmp p_pc]. intros E.
    destruct x; try reflexivity; try (injection E as <- <-; cbn; now try discriminate).
    { injection E as <- <-. cbn. destruct (decision_cases j (at_path s)) as [->|[->|[c ->]]]; discriminate. }
    all: destruct tmp as [n|]; try (injection E as <- <-; cbn; now try discriminate);
    repeat match type of E with
    | (match ?l with [] => _ | _ => _ end) = _ => destruct l
    | (match ?l with HttpError _ => _ | _ => _ end) = _ => destruct l
    | (if ?b then _ else _) = _ => destruct b
    | (match ?d with Out _ _ => _ | _ => _ end) = _ => destruct d
    | (match ?d with Some _ => _ | None => _ end) = _ => destruct d
    | (let (_, _) := ?d in _) = _ => destruct d
    end; injection E as <- <-; cbn; repeat match goal with |- context [if ?b then _ else _] => destruct b end; discriminate.
  Qed.
  Lemma seen_there i0 l p : Forall careful l -> In p (w_procs (happens (first_world St i0) l)) -> p_pc p <> Begin -> p_pc p <> Killed ->
    exists l1 l2, l = l1 ++ l2 /\ p_seen p = at_path (w_fs (happens (first_world St i0) l1)).
  Proof.
    intros C. assert (K : forall p, In p (w_procs (happens (first_world St i0) l)) -> p_pc p = Begin \/ p_pc p = Killed \/
      exists l1 l2, l = l1 ++ l2 /\ p_seen p = at_path (w_fs (happens (first_world St i0) l1))).
    { clear p. induction l as [|e l IH] using rev_ind; [contradiction|]. apply Forall_app in C as [C [Ce _]%Forall_cons_iff]. specialize (IH C). unfold ModelReplace.happens at 1. rewrite fold_left_app. cbn [fold_left].
      fold (happens (first_world St i0) l). set (w := happens (first_world St i0) l) in *.
      assert (Ext : forall p, In p (w_procs w) -> p_pc p = Begin \/ p_pc p = Killed \/
        exists l1 l2, l ++ [e] = l1 ++ l2 /\ p_seen p = at_path (w_fs (happens (first_world St i0) l1))).
      { intros p [H|[H|(l1 & l2 & Q & H)]]%IH; auto. right. right. exists l1, (l2 ++ [e]). now rewrite app_assoc, Q. }
      intros p. destruct e as [j|pieces|i|i|]; cbn [ModelReplace.happen].
      - intros [Q|[<-|[]]]%in_app_or; auto.
      - destruct Ce.
      - destruct (nth_error (w_procs w) i) as [q|] eqn:P; [|auto]. destruct (step (w_fs w) q) as [s' q'] eqn:E. cbn [w_procs].
        intros [->|(j & _ & Q)]%in_upd; [|apply nth_error_In in Q; auto]. apply nth_error_In in P.
        pose proof (step_seen _ _ _ _ E) as (J & [(B & Sn)|(B & Sn)] & Kl).
        + right. right. exists l, [Step i]. auto.
        + destruct (Ext q P) as [H|[H|H]].
          * contradiction.
          * rewrite (Kl H). auto.
          * rewrite Sn. auto.
      - destruct (nth_error (w_procs w) i) as [q|] eqn:P; [|auto]. destruct (p_pc q); try (now auto); cbn [w_procs];
          (intros [->|(j & _ & Q)]%in_upd; [auto|apply nth_error_In in Q; auto]).
      - destruct (find (w_fs w) The_db); auto. }
    intros Ip B Kl. destruct (K p Ip) as [H|[H|H]]; auto; contradiction.
  Qed.
  Lemma not_idle i0 l : Forall careful l -> forall p, In p (w_procs (happens (first_world St i0) l)) -> exists j, In (Start j) l /\ p_job p = j.
  Proof.
    intros C p. revert p. induction l as [|e l IH] using rev_ind; [contradiction|]. apply Forall_app in C as [C [Ce _]%Forall_cons_iff]. specialize (IH C).
    unfold ModelReplace.happens at 1. rewrite fold_left_app. cbn [fold_left]. fold (happens (first_world St i0) l). set (w := happens (first_world St i0) l) in *.
    assert (Ext : forall p, In p (w_procs w) -> exists j, In (Start j) (l ++ [e]) /\ p_job p = j).
    { intros p (j & A & B)%IH. exists j. split; [apply in_or_app; auto|exact B]. }
    intros p. destruct e as [j|pieces|i|i|]; cbn [ModelReplace.happen].
    - intros [Q|[<-|[]]]%in_app_or; auto. exists j. split; [apply in_or_app; right; now left|reflexivity].
    - destruct Ce.
    - destruct (nth_error (w_procs w) i) as [q|] eqn:P; [|auto]. destruct (step (w_fs w) q) as [s' q'] eqn:E. cbn [w_procs].
      intros [->|(j & _ & Q)]%in_upd; [|apply nth_error_In in Q; auto]. apply nth_error_In in P.
      pose proof (step_seen _ _ _ _ E) as (-> & _). auto.
    - destruct (nth_error (w_procs w) i) as [q|] eqn:P; [|auto]. apply nth_error_In in P. destruct (p_pc q); try (now auto); cbn [w_procs];
        (intros [->|(j & _ & Q)]%in_upd; [exact (Ext q P)|apply nth_error_In in Q; auto]).
    - destruct (find (w_fs w) The_db); auto.
  Qed.

  (** Temporary files *)
  Lemma files i0 l n m : Forall careful l -> let w := happens (first_world St i0) l in
    find (w_fs w) (Tmp n) = Some m ->
    m = n /\ exists p, In p (w_procs w) /\ p_tmp p = Some n /\
      (~ stopped p \/ p_pc p = Killed \/ exists c, ended p c /\ downloaded (p_job p) = Exception (data (get (w_fs w) n))).
  Proof.
    intros C w F. pose proof (happens_inv i0 _ l (first_inv i0) C) as V. fold w in V.
    destruct (iv_tmp _ _ V n m F) as (p & Ip & T). destruct (iv_own _ _ V p n Ip T) as (F' & _). split; [congruence|].
    exists p. split; [exact Ip|]. split; [exact T|]. pose proof (iv_sim _ _ V p Ip) as (_ & H). rewrite T in H. unfold stopped, ended.
    destruct (p_pc p) eqn:X; try (now destruct H); try (left; intros [?|[?|[? ?]]]; discriminate).
    - right. right. exists code. tauto.
    - auto.
  Qed.
  Lemma left_over i0 l p c f : Forall careful l -> let w := happens (first_world St i0) l in
    In p (w_procs w) -> ended p c -> decision (p_job p) (p_seen p) = Creating -> downloaded (p_job p) = Exception f ->
    exists n, p_tmp p = Some n /\ find (w_fs w) (Tmp n) = Some n /\ data (get (w_fs w) n) = f.
  Proof.
    intros C w Ip E D R. pose proof (happens_inv i0 _ l (first_inv i0) C) as V. fold w in V.
    pose proof (iv_sim _ _ V p Ip) as (_ & H). unfold ended in E. rewrite E in H. destruct (p_tmp p) as [n|] eqn:T.
    - destruct (iv_own _ _ V p n Ip T) as (F & _). exists n. split; [reflexivity|]. split; [exact F|]. destruct H as (_ & X & _). congruence.
    - exfalso. destruct H as [X|(_ & [(X & _)|(_ & g & X)])]; congruence.
  Qed.

  (** A process that has stopped stays as it is, and so does its file *)
  Lemma step_stopped s p : stopped p -> step s p = (s, p).
  Proof. intros [H|[H|[c H]]]; unfold ModelReplace.step; rewrite H; now destruct (p_tmp p). Qed.
  Lemma to_same (p : proc) x : p_pc p = x -> to p x = p.
  Proof. intros <-. now destruct p. Qed.
  Lemma happen_stopped i0 w e i p n : inv i0 w -> careful e -> nth_error (w_procs w) i = Some p -> stopped p -> p_tmp p = Some n ->
    nth_error (w_procs (happen w e)) i = Some p /\ get (w_fs (happen w e)) n = get (w_fs w) n.
  Proof.
    intros V C P Sp T. destruct e as [j|pieces|i'|i'|]; cbn [ModelReplace.happen].
    - cbn [w_procs w_fs]. split; [|reflexivity]. rewrite nth_error_app1; [exact P|]. apply nth_error_Some. congruence.
    - destruct C.
    - destruct (nth_error (w_procs w) i') as [q|] eqn:Q; [|auto]. destruct (step (w_fs w) q) as [s' q'] eqn:E. cbn [w_procs w_fs].
      destruct (Nat.eq_dec i' i) as [->|D].
      + rewrite P in Q. injection Q as <-. rewrite (step_stopped _ _ Sp) in E. injection E as <- <-.
        rewrite nth_error_upd, Nat.eqb_refl, P. auto.
      + rewrite nth_error_upd. replace (i' =? i) with false by (symmetry; now apply Nat.eqb_neq). split; [exact P|].
        pose proof (nth_error_In _ _ Q) as Iq. apply (moves_keeps _ _ _ _ n (step_moves _ _ _ _ (iv_sim _ _ V q Iq) E)).
        * destruct (iv_own _ _ V p n (nth_error_In _ _ P) T) as (F & _). exact (iv_dir _ _ V _ _ F).
        * intros T'. apply D. exact (iv_apart _ _ V _ _ _ _ n Q P T' T).
    - destruct (nth_error (w_procs w) i') as [q|] eqn:Q; [|auto].
      destruct (Nat.eq_dec i' i) as [->|D].
      + rewrite P in Q. injection Q as <-. destruct Sp as [H|[H|[c H]]]; rewrite H; auto.
        cbn [w_procs w_fs]. rewrite nth_error_upd, Nat.eqb_refl, P, to_same by exact H. auto.
      + destruct (p_pc q); auto; cbn [w_procs w_fs]; rewrite nth_error_upd; (replace (i' =? i) with false by (symmetry; now apply Nat.eqb_neq)); auto.
    - destruct (find (w_fs w) The_db); auto.
  Qed.
  Lemma forever i0 l l' p n : Forall careful l -> Forall careful l' -> let w := happens (first_world St i0) l in
    In p (w_procs w) -> stopped p -> p_tmp p = Some n ->
    find (w_fs (happens w l')) (Tmp n) = Some n /\ get (w_fs (happens w l')) n = get (w_fs w) n.
  Proof.
    intros C C' w [i P]%In_nth_error Sp T. pose proof (happens_inv i0 _ l (first_inv i0) C) as V. fold w in V. clearbody w.
    revert w P V. induction C' as [|e l' Ce _ IH]; intros w P V.
    - destruct (iv_own _ _ V p n (nth_error_In _ _ P) T) as (F & _). auto.
    - destruct (happen_stopped i0 w e i p n V Ce P Sp T) as [P' G].
      destruct (IH (happen w e) P' (happen_inv _ _ _ V Ce)) as [A B]. cbn. split; [exact A|].
      etransitivity; [exact B|exact G].
  Qed.

  (** Every process comes to an end *)
  Definition weight (ms : list mirror) : nat := list_sum (map (fun m => 3 + match m with Body cs _ => length cs | _ => 0 end) ms).
  Definition to_go (p : proc) : nat :=
    match p_pc p with
    | Begin => 7 + weight (j_mirrors (p_job p))
    | Creating => 6 + weight (j_mirrors (p_job p))
    | Trying _ ms => 5 + weight ms
    | Receiving _ cs _ _ ms => 7 + weight ms + length cs
    | Received _ ms => 6 + weight ms
    | Accepted => 2
    | Moving | Removing => 1
    | _ => 0
    end.
  Lemma step_to_go s p s' p' : sim s p -> step s p = (s', p') -> to_go p' < to_go p \/ stopped p /\ p' = p.
  Proof.
    destruct p as [j seen tmp x]. unfold sim, ModelReplace.step, to, over, to_go. cbn [p_job p_seen p_tmp p_pc].
    intros (Rn & H) E.
    destruct x; destruct tmp as [n|]; try contradiction; try (now destruct H);
      try (right; split; [unfold stopped; cbn; now eauto|now injection E as <- <-]); left.
    - injection E as <- <-. cbn [p_pc p_job]. destruct (decision_cases j (at_path s)) as [->|[->|[c ->]]]; lia.
    - injection E as <- <-. cbn [p_pc p_job]. lia.
    - destruct ms as [|[c| |cs b] ms]; injection E as <- <-; cbn [p_pc p_job]; unfold weight; cbn [map list_sum fold_right]; try lia.
      all: try (change (fold_right Nat.add 0) with list_sum); try lia.
    - destruct chunks as [|c cs]; [injection E as <- <-; cbn [p_pc length]; destruct broken; lia|].
      destruct (length c =? 0); [injection E as <- <-; cbn [p_pc length]; lia|].
      destruct (decompress s0 c) as [x' buf| |]; try (injection E as <- <-; cbn [p_pc length]; lia).
      destruct (length buf =? 0); injection E as <- <-; cbn [p_pc length]; lia.
    - destruct (find s (Tmp n)) as [m|]; [|injection E as <- <-; cbn [p_pc]; lia].
      destruct (check j (data (get s m))) as [[|]|]; injection E as <- <-; cbn [p_pc]; lia.
    - injection E as <- <-. cbn [p_pc]. lia.
    - rewrite Rn in E. injection E as <- <-. cbn [p_pc]. lia.
    - injection E as <- <-. cbn [p_pc]. lia.
  Qed.
  Lemma happen_stays w e i p : nth_error (w_procs w) i = Some p -> stopped p -> nth_error (w_procs (happen w e)) i = Some p.
  Proof.
    intros P Sp. destruct e as [j|pieces|i'|i'|]; cbn [ModelReplace.happen].
    - cbn [w_procs]. rewrite nth_error_app1; [exact P|]. apply nth_error_Some. congruence.
    - cbn [w_procs]. rewrite nth_error_app1; [exact P|]. apply nth_error_Some. congruence.
    - destruct (nth_error (w_procs w) i') as [q|] eqn:Q; [|auto]. destruct (step (w_fs w) q) as [s' q'] eqn:E. cbn [w_procs].
      destruct (Nat.eq_dec i' i) as [->|D].
      + rewrite P in Q. injection Q as <-. rewrite (step_stopped _ _ Sp) in E. injection E as <- <-.
        rewrite nth_error_upd, Nat.eqb_refl, P. auto.
      + rewrite nth_error_upd. replace (i' =? i) with false by (symmetry; now apply Nat.eqb_neq). exact P.
    - destruct (nth_error (w_procs w) i') as [q|] eqn:Q; [|auto].
      destruct (Nat.eq_dec i' i) as [->|D].
      + rewrite P in Q. injection Q as <-. destruct Sp as [H|[H|[c H]]]; rewrite H; auto.
        cbn [w_procs]. rewrite nth_error_upd, Nat.eqb_refl, P, to_same by exact H. auto.
      + destruct (p_pc q); auto; cbn [w_procs]; rewrite nth_error_upd; (replace (i' =? i) with false by (symmetry; now apply Nat.eqb_neq)); auto.
    - destruct (find (w_fs w) The_db); auto.
  Qed.
  Lemma happens_stays w l i p : nth_error (w_procs w) i = Some p -> stopped p -> nth_error (w_procs (happens w l)) i = Some p.
  Proof. intros P Sp. revert w P. induction l as [|e l IH]; intros w P; [exact P|]. apply IH. now apply happen_stays. Qed.
  Lemma turns_left i0 w l i p : inv i0 w -> Forall careful l -> nth_error (w_procs w) i = Some p ->
    exists p', nth_error (w_procs (happens w l)) i = Some p' /\ (stopped p' \/ to_go p' + turns i l <= to_go p).
  Proof.
    intros V C. revert w p V. induction C as [|e l Ce C IH]; intros w p V P.
    - exists p. split; [exact P|]. right. cbn. lia.
    - assert (K : exists q, nth_error (w_procs (happen w e)) i = Some q /\ (stopped q \/ to_go q + turns i [e] <= to_go p)).
      { destruct e as [j|pieces|i'|i'|]; cbn [ModelReplace.happen].
        - exists p. cbn [w_procs]. rewrite nth_error_app1 by (apply nth_error_Some; congruence). split; [exact P|]. right. cbn. lia.
        - destruct Ce.
        - unfold turns. cbn [filter]. destruct (Nat.eqb_spec i i') as [<-|D].
          + rewrite P. destruct (step (w_fs w) p) as [s' q] eqn:E. exists q. cbn [w_procs]. rewrite nth_error_upd, Nat.eqb_refl, P. split; [reflexivity|].
            destruct (step_to_go _ _ _ _ (iv_sim _ _ V p (nth_error_In _ _ P)) E) as [H|[H ->]]; [right; cbn [length]; lia|auto].
          + exists p. split; [|right; cbn; lia]. destruct (nth_error (w_procs w) i') as [r|] eqn:R; [|exact P].
            destruct (step (w_fs w) r) as [s' r']. cbn [w_procs]. rewrite nth_error_upd. now replace (i' =? i) with false by (symmetry; apply Nat.eqb_neq; auto).
        - destruct (nth_error (w_procs w) i') as [r|] eqn:R; [|exists p; split; [exact P|right; cbn; lia]].
          destruct (Nat.eq_dec i' i) as [->|D].
          + rewrite P in R. injection R as <-.
            assert (G : exists q, nth_error (upd (w_procs w) i (to p Killed)) i = Some q /\ (stopped q \/ to_go q + turns i [Kill i] <= to_go p)).
            { exists (to p Killed). rewrite nth_error_upd, Nat.eqb_refl, P. split; [reflexivity|]. left. unfold stopped. cbn. auto. }
            destruct (p_pc p); try exact G; exists p; (split; [exact P|right; cbn; lia]).
          + exists p. split; [|right; cbn; lia]. destruct (p_pc r); try exact P; cbn [w_procs]; rewrite nth_error_upd; now replace (i' =? i) with false by (symmetry; now apply Nat.eqb_neq).
        - exists p. split; [|right; cbn; lia]. destruct (find (w_fs w) The_db); exact P. }
      destruct K as (q & Q & B). destruct (IH _ q (happen_inv _ _ _ V Ce) Q) as (p' & P' & B'). exists p'. split; [exact P'|].
      assert (T : turns i (e :: l) = turns i [e] + turns i l).
      { unfold turns. cbn [filter]. destruct (match e with Step j => i =? j | _ => false end); reflexivity. }
      rewrite T. destruct B' as [B'|B']; [auto|]. destruct B as [B|B]; [|right; lia].
      left. apply (happens_stays _ l) in Q; [|exact B]. rewrite P' in Q. injection Q as ->. exact B.
  Qed.

  Lemma happens_app w l l' : happens w (l ++ l') = happens (happens w l) l'.
  Proof. apply fold_left_app. Qed.
  Lemma started w j : nth_error (w_procs (happen w (Start j))) (length (w_procs w)) = Some (mkProc j Missing None Begin).
  Proof. cbn. rewrite nth_error_app2 by lia. now rewrite Nat.sub_diag. Qed.
  Lemma effort_to_go j : to_go (mkProc j Missing None Begin) = effort j.
  Proof. reflexivity. Qed.
  Lemma comes_to_end i0 l j l' : Forall careful l -> j_rename j = true -> Forall careful l' ->
    let w := happens (first_world St i0) l in let i := length (w_procs w) in
    effort j <= turns i l' ->
    exists p, nth_error (w_procs (happens w (Start j :: l'))) i = Some p /\ stopped p.
  Proof.
    intros C Rn C' w i Tn. pose proof (happens_inv i0 _ l (first_inv i0) C) as V. fold w in V.
    destruct (turns_left i0 (happen w (Start j)) l' i _ (happen_inv i0 w (Start j) V Rn) C' (started w j)) as (p & P & [Sp|L]).
    - exists p. auto.
    - rewrite effort_to_go in L. exists p. split; [exact P|].
      assert (Z : to_go p = 0) by lia. pose proof (happens_inv i0 (happen w (Start j)) l' (happen_inv i0 w (Start j) V Rn) C') as V'.
      pose proof (iv_sim _ _ V' p (nth_error_In _ _ P)) as (_ & H). unfold stopped, to_go in *.
      destruct (p_pc p); try discriminate; eauto; try (destruct (p_tmp p); now try destruct H).
  Qed.

  (** Alone *)
  Definition alone (j : job) (i : installed) (s : fs) (p : proc) : Prop :=
    p_job p = j /\
    match p_pc p with
    | Begin => at_path s = i
    | Killed => False
    | Ended c => outcome_of j i = Ok (mkUpdate c (at_path s))
    | Crashed => outcome_of j i = UB /\ at_path s = i
    | _ => p_seen p = i /\ at_path s = i
    end.
  Lemma at_path_same s p s' p' : moves s p s' p' ->
    (forall x n, find s x = Some n -> n < length (inodes s)) ->
    (forall n, p_tmp p = Some n -> find s (Tmp n) = Some n /\ find s The_db <> Some n) ->
    p_pc p <> Moving -> at_path s' = at_path s.
  Proof.
    intros M Dir Own Nm. unfold at_path. destruct (find s' The_db) as [n|] eqn:F.
    - destruct (m_db _ _ _ _ M Dir Own n F) as [[-> ->]|(_ & X & _)]; [reflexivity|contradiction].
    - now rewrite (m_none _ _ _ _ M Dir Own F).
  Qed.
  Lemma step_alone j i s p s' p' : sim s p ->
    (forall x n, find s x = Some n -> n < length (inodes s)) ->
    (forall n, p_tmp p = Some n -> find s (Tmp n) = Some n /\ find s The_db <> Some n) ->
    step s p = (s', p') -> alone j i s p -> alone j i s' p'.
  Proof.
    intros Sm Dir Own E (J & A). pose proof (step_moves _ _ _ _ Sm E) as M.
    pose proof (step_sim _ _ _ _ Sm (fun n T => conj (proj1 (Own n T)) (Dir _ _ (proj1 (Own n T)))) E) as Sm'.
    pose proof (step_seen _ _ _ _ E) as (J' & Sn & _). split; [congruence|].
    pose proof (at_path_same _ _ _ _ M Dir Own) as Same.
    destruct p as [j0 seen tmp x]. cbn [p_job p_pc p_tmp p_seen] in *. subst j0.
    pose proof (decision_outcome j i) as Oc.
    assert (Keep : forall c, x = Ended c \/ x = Crashed \/ x = Killed -> s' = s /\ p' = mkProc j seen tmp x).
    { intros c H. rewrite (step_stopped s (mkProc j seen tmp x)) in E by (unfold stopped; cbn; intuition eauto). now injection E as <- <-. }
    destruct (match x with Begin => true | Moving => true | Removing => true | Ended _ => true | Crashed => true | Killed => true | _ => false end) eqn:Kind.
    - destruct x; try discriminate.
      + injection E as <- <-. cbn [p_pc p_job p_seen]. rewrite A in *. destruct (decision_cases j i) as [D|[D|[c D]]]; rewrite D in *; auto.
      + destruct A as [-> A]. destruct tmp as [n|]; [|now destruct Sm]. destruct Sm as (Rn & D & R & _). cbn [p_job p_seen p_tmp p_pc] in *.
        unfold ModelReplace.step in E. cbn [p_job p_seen p_tmp p_pc] in E. rewrite Rn in E. injection E as <- <-. cbn [over p_pc]. rewrite D, R in Oc. rewrite Oc.
        unfold at_path. rewrite find_link_eq. reflexivity.
      + destruct A as [-> A]. destruct tmp as [n|]; [|now destruct Sm]. destruct Sm as (Rn & D & R). cbn [p_job p_seen p_tmp p_pc] in *.
        rewrite Same by discriminate. injection E as <- <-. cbn [over p_pc]. rewrite D, R in Oc. rewrite Oc, A. reflexivity.
      + destruct (Keep code) as [-> ->]; auto.
      + destruct (Keep 0%Z) as [-> ->]; auto.
      + contradiction.
    - assert (As : seen = i /\ at_path s = i) by (destruct x; try discriminate; exact A). destruct As as [-> As].
      assert (Nb : x <> Begin) by (intros ->; discriminate).
      assert (Sn' : p_seen p' = i) by (destruct Sn as [[X _]|[_ X]]; [contradiction|exact X]). 
      assert (Same' : at_path s' = i) by (rewrite Same; [exact As|intros ->; discriminate]).
      assert (T : exists n, p_tmp p' = Some n).
      { destruct M as [p' T|n o p' T T'|p' T T'|n p' T X _ _ _|n p' T T' X].
        - cbn [p_tmp] in T. destruct tmp as [n|]; [eauto|]. exfalso. destruct Sm as (_ & Sm). cbn in Sm. destruct x; try discriminate; try contradiction. 
          unfold ModelReplace.step in E. cbn in E. injection E as E1 E2. apply (f_equal (fun z => length (inodes z))) in E1. cbn in E1. rewrite app_length in E1. cbn in E1. lia.
        - eauto.
        - eauto.
        - cbn in X. subst x. discriminate.
        - cbn in X. subst x. discriminate. }
      destruct T as [n T]. destruct Sm' as (_ & H). rewrite T, J', Sn' in H.
      destruct (p_pc p') eqn:Y; try contradiction; try (now destruct H); auto.
      + destruct H as (D & R & ->). rewrite D, R in Oc. rewrite Oc, Same'. reflexivity.
      + exfalso. apply (step_killed _ _ _ _ E) in Y. cbn in Y. subst x. discriminate.
  Qed.
  Lemma run_alone i0 w i j p n : inv i0 w -> nth_error (w_procs w) i = Some p -> forall a, alone j a (w_fs w) p ->
    exists p', nth_error (w_procs (happens w (repeat (Step i) n))) i = Some p' /\ alone j a (w_fs (happens w (repeat (Step i) n))) p'.
  Proof.
    intros V P a A. revert w p V P A. induction n as [|n IH]; intros w p V P A; [exists p; auto|]. cbn [repeat].
    change (happens w (Step i :: repeat (Step i) n)) with (happens (happen w (Step i)) (repeat (Step i) n)).
    destruct (step (w_fs w) p) as [s' p'] eqn:E.
    apply (IH (happen w (Step i)) p').
    - now apply step_inv.
    - cbn. rewrite P, E. cbn. rewrite nth_error_upd, Nat.eqb_refl, P. reflexivity.
    - pose proof (nth_error_In _ _ P) as Ip.
      cbn. rewrite P, E. cbn [w_fs]. apply (step_alone j a (w_fs w) p s' p'); auto.
      + now apply (iv_sim _ _ V).
      + apply (iv_dir _ _ V).
      + intros m T. destruct (iv_own _ _ V p m Ip T) as (X & Y & _). auto.
  Qed.
  Lemma turns_repeat i n : turns i (repeat (Step i) n) = n.
  Proof. unfold turns. induction n as [|n IH]; cbn; auto. rewrite Nat.eqb_refl. cbn. now rewrite IH. Qed.
  Lemma update_alone i0 l j n : Forall careful l -> j_rename j = true -> effort j <= n ->
    let w := happens (first_world St i0) l in let i := length (w_procs w) in
    let w' := happens w (Start j :: repeat (Step i) n) in
    exists p, nth_error (w_procs w') i = Some p /\
      match outcome_of j (at_path (w_fs w)) with
      | Ok u => ended p (exit_code u) /\ at_path (w_fs w') = after u
      | _ => p_pc p = Crashed /\ at_path (w_fs w') = at_path (w_fs w)
      end.
  Proof.
    intros C Rn Ef w i w'. pose proof (happens_inv i0 _ l (first_inv i0) C) as V. fold w in V.
    assert (Cr : Forall careful (repeat (Step i) n)) by (apply Forall_forall; intros e ->%repeat_spec; exact Logic.I).
    destruct (comes_to_end i0 l j (repeat (Step i) n) C Rn Cr) as (p & P & Sp); [fold w; fold i; now rewrite turns_repeat|].
    fold w in P. fold i in P. fold w' in P. exists p. split; [exact P|].
    destruct (run_alone i0 (happen w (Start j)) i j _ n (happen_inv i0 w (Start j) V Rn) (started w j) (at_path (w_fs w))) as (q & Q & J & A).
    { split; reflexivity. }
    change (nth_error (w_procs w') i = Some q) in Q. rewrite P in Q. injection Q as <-.
    destruct Sp as [X|[X|[c X]]]; rewrite X in A.
    - destruct A as [-> A]. auto.
    - contradiction.
    - rewrite A. cbn [exit_code after]. auto.
  Qed.

  (** What programs have opened *)
  Lemma readers_good i0 l n : Forall careful l -> let w := happens (first_world St i0) l in
    In n (w_readers w) -> i0 = Some (data (get (w_fs w) n)) \/ exists j, In (Start j) l /\ good k (j_dns j) (data (get (w_fs w) n)).
  Proof.
    induction l as [|e l IH] using rev_ind; [contradiction|]. intros [C [Ce _]%Forall_cons_iff]%Forall_app. specialize (IH C). cbn zeta in *.
    rewrite happens_app. cbn [ModelReplace.happens fold_left]. pose proof (happens_inv i0 _ l (first_inv i0) C) as V.
    pose proof (not_idle i0 l C) as Jobs.
    set (w := happens (first_world St i0) l) in *. clearbody w. intros R.
    assert (K : In n (w_readers w) \/ e = Open /\ find (w_fs w) The_db = Some n).
    { destruct e as [j|pieces|i|i|]; cbn [ModelReplace.happen] in R; auto.
      - destruct (nth_error (w_procs w) i) as [p|]; [|auto]. destruct (step (w_fs w) p). auto.
      - destruct (nth_error (w_procs w) i) as [p|]; [|auto]. destruct (p_pc p); auto.
      - destruct (find (w_fs w) The_db) as [m|]; [|auto]. cbn in R. apply in_app_or in R as [R|[<-|[]]]; auto. }
    destruct K as [K|[-> F]].
    - destruct (happen_keeps i0 w e n V Ce K) as [-> _]. destruct (IH K) as [H|(j & A & B)]; [auto|]. right. exists j. split; [apply in_or_app; auto|exact B].
    - cbn [ModelReplace.happen]. rewrite F. cbn [w_fs]. destruct (iv_db _ _ V n F) as [[H _]|(p & Ip & _ & _ & D & _)]; [auto|]. right.
      destruct (Jobs p Ip) as (j & A & <-). exists (p_job p). split; [apply in_or_app; auto|]. now apply downloaded_good.
  Qed.

  (** Files that stay *)
  Definition unlucky : job := mkJob None 0 None [Unreachable] true false false.
  Lemma filter_all s x : find s x = None -> filter (fun e : name * nat => negb (name_eqb (fst e) x)) (dir s) = dir s.
  Proof.
    unfold find. induction (dir s) as [|[y n] d IH]; cbn; auto. destruct (name_eqb y x); cbn; [discriminate|]. intros H. f_equal. auto.
  Qed.
  Lemma litter m : exists l, Forall careful l /\ let w := happens (first_world St None) l in
    length (dir (w_fs w)) = m /\ find (w_fs w) The_db = None /\ (forall p, In p (w_procs w) -> ended p 1) /\ (length l = 4 * m)%nat.
  Proof.
    induction m as [|m (l & C & Ld & F & Ps & Ll)].
    - exists []. split; [constructor|]. repeat split; auto. contradiction.
    - pose proof (happens_inv None _ l (first_inv None) C) as V.
      set (w := happens (first_world St None) l) in *. set (i := length (w_procs w)).
      exists (l ++ [Start unlucky; Step i; Step i; Step i]). split.
      { apply Forall_app. split; [exact C|]. repeat (constructor; [exact Logic.I || reflexivity|]). constructor. }
      rewrite happens_app. fold w.
      set (n := length (inodes (w_fs w))).
      assert (E : happens w [Start unlucky; Step i; Step i; Step i] =
        mkWorld (fst (create (w_fs w) Tmp false)) (w_procs w ++ [mkProc unlucky Missing (Some n) (Ended 1)]) (w_readers w)).
      { assert (U : forall x y, upd (w_procs w ++ [x]) i y = w_procs w ++ [y]).
        { intros x y. unfold i. rewrite <- (Nat.add_0_r (length (w_procs w))), upd_app_r. reflexivity. }
        assert (Nx : forall x, nth_error (w_procs w ++ [x]) i = Some x).
        { intros x. unfold i. rewrite nth_error_app2 by lia. now rewrite Nat.sub_diag. }
        assert (Ap : at_path (w_fs w) = Missing) by (unfold at_path; now rewrite F).
        unfold ModelReplace.happens. cbn [fold_left].
        unfold ModelReplace.happen at 4. unfold ModelReplace.happen at 3. cbn [w_procs w_fs w_readers].
        rewrite Nx. unfold ModelReplace.step at 1. cbn [p_pc p_job p_seen p_tmp]. rewrite Ap, U.
        unfold ModelReplace.happen at 2. cbn [w_procs w_fs w_readers]. rewrite Nx. unfold ModelReplace.step at 1. cbn [p_pc p_job p_seen p_tmp]. 
        change (decision unlucky Missing) with (@Creating St). cbn [p_pc p_job p_seen p_tmp]. destruct (create (w_fs w) Tmp false) as [s' n'] eqn:Cr. rewrite U.
        unfold ModelReplace.happen. cbn [w_procs w_fs w_readers]. rewrite Nx. cbn [ModelReplace.step p_pc p_job p_seen p_tmp j_mirrors unlucky to]. rewrite U.
        injection Cr as <- <-. reflexivity. }
      rewrite E. cbn [w_fs w_procs w_readers]. unfold create. cbn [fst].
      assert (Ft : find (w_fs w) (Tmp n) = None).
      { destruct (find (w_fs w) (Tmp n)) as [x|] eqn:X; [|reflexivity]. destruct (iv_tmp _ _ V _ _ X) as (p & Ip & T).
        destruct (iv_own _ _ V p n Ip T) as (Y & _). apply (iv_dir _ _ V) in Y. unfold n in Y. lia. }
      split; [|split; [|split]].
      + change (S (length (filter (fun e => negb (name_eqb (fst e) (Tmp n))) (dir (w_fs w)))) = S m). rewrite (filter_all (w_fs w) _ Ft). now rewrite Ld.
      + now rewrite find_link_neq by discriminate.
      + intros p [Ip|[<-|[]]]%in_app_or; [auto|reflexivity].
      + rewrite app_length, Ll. cbn. lia.
  Qed.

  Lemma write_empties w i p n pieces :
    nth_error (w_procs w) i = Some p -> p_pc p = Opening pieces -> p_tmp p = None -> find (w_fs w) The_db = Some n -> n < length (inodes (w_fs w)) ->
    let w' := happens w [Step i; Kill i] in data (get (w_fs w') n) = [] /\ at_path (w_fs w') = File [].
  Proof.
    intros P X T F L w'.
    assert (E : w_fs w' = set_data (w_fs w) n []).
    { unfold w', ModelReplace.happens. cbn [fold_left]. unfold ModelReplace.happen at 2. rewrite P. unfold ModelReplace.step. rewrite X, T. unfold open_write. rewrite F.
      unfold ModelReplace.happen. cbn [w_procs]. rewrite nth_error_upd, Nat.eqb_refl, P. reflexivity. }
    rewrite E. split; [now apply set_data_get|]. unfold at_path. change (find (set_data (w_fs w) n []) The_db) with (find (w_fs w) The_db).
    rewrite F, set_data_get by exact L. reflexivity.
  Qed.
End Replace.
