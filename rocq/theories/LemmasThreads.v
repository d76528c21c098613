(** Proofs about threads (C91). *)
From Coq Require Import NArith ZArith List Bool Arith Lia.
From Verif Require Import Base LemmasBase ModelAddress ModelText ModelThreads SpecThreads.
Import ListNotations.
Open Scope nat_scope.
Local Opaque address_text.

Lemma upd_upd {A} (l : list A) i x y : upd (upd l i x) i y = upd l i y.
Proof. revert i. induction l as [|z l IH]; intros [|i]; cbn; auto. now rewrite IH. Qed.
Lemma upd_same {A} (l : list A) i d : i < length l -> upd l i (nth i l d) = l.
Proof. revert i. induction l as [|z l IH]; intros [|i] L; cbn in *; try lia; auto. rewrite IH; [reflexivity|lia]. Qed.
Lemma quiet_nth n t : nth t (quiet n) Idle = Idle.
Proof. unfold quiet. revert t. induction n as [|n IH]; intros [|t]; cbn; auto. Qed.
Lemma quiet_upd n t : t < n -> upd (quiet n) t Idle = quiet n.
Proof. intros L. assert (E := upd_same (quiet n) t Idle). rewrite quiet_nth in E. apply E. unfold quiet. now rewrite repeat_length. Qed.
Lemma quiet_length n : length (quiet n) = n.
Proof. apply repeat_length. Qed.

Lemma run_cons m t a l : run_str m ((t, a) :: l) = do (m, r) <- step_str m t a; do (m, rs) <- run_str m l; Ok (m, match r with Some p => (t, p) :: rs | None => rs end).
Proof. reflexivity. Qed.
Lemma run_app l1 : forall m l2, run_str m (l1 ++ l2) = do (m, r1) <- run_str m l1; do (m, r2) <- run_str m l2; Ok (m, r1 ++ r2).
Proof.
  induction l1 as [|[t a] l1 IH]; intros m l2; cbn [app run_str].
  - cbn [bind]. destruct (run_str m l2) as [[m2 r2]| | |]; reflexivity.
  - destruct (step_str m t a) as [[m1 r]| | |]; cbn [bind]; try reflexivity. rewrite IH.
    destruct (run_str m1 l1) as [[m2 r1]| | |]; cbn [bind]; try reflexivity.
    destruct (run_str m2 l2) as [[m3 r2]| | |]; cbn [bind]; try reflexivity. destruct r; reflexivity.
Qed.

(** The call of a thread while no other one is within the function *)
Lemma call_alone n r t a : t < n ->
  run_str (mkMachine r (quiet n)) (repeat (t, a) 5) =
  do (r', p) <- address_str r (Some a); Ok (mkMachine r' (quiet n), [(t, p)]).
Proof.
  intros L. cbn [repeat]. 
  assert (G : forall w, nth t (upd (quiet n) t w) Idle = w) by (intros w; apply nth_upd_eq; now rewrite quiet_length).
  rewrite run_cons. unfold step_str at 1, at_. cbn [m_threads m_ring]. rewrite quiet_nth. cbn [bind]. unfold move. cbn [m_threads m_ring r_buffers r_idx].
  rewrite run_cons. unfold step_str at 1, at_. cbn [m_threads m_ring]. rewrite G. cbn [bind]. unfold move. cbn [m_threads m_ring r_buffers r_idx]. rewrite upd_upd.
  rewrite run_cons. unfold step_str at 1, at_. cbn [m_threads m_ring]. rewrite G. cbn [bind]. unfold move. cbn [m_threads m_ring r_buffers r_idx]. rewrite upd_upd.
  rewrite run_cons. unfold step_str at 1, at_. cbn [m_threads m_ring]. rewrite G. cbn [bind]. unfold move. cbn [m_threads m_ring r_buffers r_idx]. rewrite upd_upd.
  rewrite run_cons. unfold step_str at 1, at_. cbn [m_threads m_ring]. rewrite G. unfold move. cbn [m_threads m_ring r_buffers r_idx]. rewrite upd_upd, quiet_upd by exact L.
  unfold address_str. destruct (ADDRESS_BUFFERS <=? r_idx r); [reflexivity|]. destruct (address_text a INET6_ADDRSTRLEN) as [s|]; reflexivity.
Qed.
Lemma in_turn n l : forall r, within n l ->
  run_str (mkMachine r (quiet n)) (one_by_one l) = do (r', ps) <- sequential r l; Ok (mkMachine r' (quiet n), ps).
Proof.
  induction l as [|[t a] l IH]; intros r W; [reflexivity|]. inversion W as [|? ? Wt Wl]; subst. cbn [fst] in Wt.
  change (one_by_one ((t, a) :: l)) with (repeat (t, a) 5 ++ one_by_one l). rewrite run_app, call_alone by exact Wt. cbn [sequential].
  destruct (address_str r (Some a)) as [[r1 p]| | |]; cbn [bind]; try reflexivity. rewrite IH by exact Wl.
  destruct (sequential r1 l) as [[r2 ps]| | |]; reflexivity.
Qed.
Lemma sequential_ok l : forall r, r_idx r < ADDRESS_BUFFERS ->
  exists r' ps, sequential r l = Ok (r', ps) /\ address_strs r (map (fun c => Some (snd c)) l) = Ok r' /\ map fst ps = map fst l /\
    Forall (fun p => match snd p with Some i => i < ADDRESS_BUFFERS | None => True end) ps.
Proof.
  induction l as [|[t a] l IH]; intros r L; cbn [sequential map address_strs snd]; [exists r, []; auto|].
  assert (M : (r_idx r + 1) mod ADDRESS_BUFFERS < ADDRESS_BUFFERS) by (apply Nat.mod_upper_bound; discriminate).
  assert (A : exists r1 p, address_str r (Some a) = Ok (r1, p) /\ r_idx r1 < ADDRESS_BUFFERS /\ match p with Some i => i < ADDRESS_BUFFERS | None => True end).
  { unfold address_str. rewrite (proj2 (Nat.leb_gt _ _) L). destruct (address_text a _) as [s|]; do 2 eexists; split; try reflexivity; cbn [r_idx]; auto. }
  destruct A as (r1 & p & -> & L1 & Lp). cbn [bind fst]. destruct (IH r1 L1) as (r2 & ps & -> & E & F & G). cbn [bind].
  exists r2, ((t, p) :: ps). split; [reflexivity|]. split; [exact E|]. split; [cbn [map fst]; now rewrite F|]. constructor; [exact Lp|exact G].
Qed.
Theorem locked n l : within n l ->
  exists r ps, run_str (machine0 n) (one_by_one l) = Ok (mkMachine r (quiet n), ps) /\ sequential ring0 l = Ok (r, ps) /\
    address_strs ring0 (map (fun c => Some (snd c)) l) = Ok r /\ map fst ps = map fst l /\
    Forall (fun p => match snd p with Some i => i < ADDRESS_BUFFERS | None => True end) ps.
Proof.
  intros W. destruct (sequential_ok l ring0) as (r & ps & E & F & G); [unfold ring0; cbn [r_idx]; unfold ADDRESS_BUFFERS; lia|].
  exists r, ps. unfold machine0. rewrite in_turn by exact W. rewrite E. auto.
Qed.

(** ** Threads that overlap *)
(** The first [k] of [n] threads have written the index *)
Definition climbed (a : addr) (n k : nat) : list where_ := map (fun j => Wrote50 a (5 + j)) (seq 0 k) ++ quiet (n - k).
Lemma climbed_nth a n k : k < n -> nth k (climbed a n k) Idle = Idle.
Proof. intros L. unfold climbed. rewrite app_nth2; rewrite map_length, seq_length; [|lia]. apply quiet_nth. Qed.
Lemma upd_at_end {A} (l : list A) x y r : upd (l ++ x :: r) (length l) y = l ++ y :: r.
Proof. induction l as [|z l IH]; cbn; [reflexivity|now rewrite IH]. Qed.
Lemma climbed_upd a n k w : k < n -> upd (climbed a n k) k w = map (fun j => Wrote50 a (5 + j)) (seq 0 k) ++ w :: quiet (n - S k).
Proof.
  intros L. unfold climbed. replace (n - k) with (S (n - S k)) by lia. unfold quiet at 1. cbn [repeat]. fold (quiet (n - S k)).
  assert (E := upd_at_end (map (fun j => Wrote50 a (5 + j)) (seq 0 k)) Idle w (quiet (n - S k))). now rewrite map_length, seq_length in E.
Qed.
Definition climb (a : addr) (k : nat) : list (nat * addr) := flat_map (fun t => [(t, a); (t, a)]) (seq 0 k).
Lemma climb_ok a n bs k : k <= n ->
  run_str (mkMachine (mkRing bs 5) (quiet n)) (climb a k) = Ok (mkMachine (mkRing bs (5 + k)) (climbed a n k), []).
Proof.
  induction k as [|k IH]; intros L.
  - cbn. unfold climbed. cbn. now rewrite Nat.sub_0_r.
  - unfold climb. rewrite seq_S, flat_map_app. fold (climb a k). rewrite run_app, IH by lia. cbn [bind flat_map app Nat.add].
    rewrite run_cons. unfold step_str at 1, at_. cbn [m_threads m_ring]. rewrite climbed_nth by lia. cbn [bind]. unfold move. cbn [m_threads m_ring r_buffers r_idx].
    rewrite run_cons. unfold step_str at 1, at_. cbn [m_threads m_ring].
    rewrite nth_upd_eq by (unfold climbed; rewrite app_length, map_length, seq_length, quiet_length; lia).
    cbn [bind run_str]. unfold move. cbn [m_threads m_ring r_buffers r_idx]. rewrite upd_upd, climbed_upd by lia.
    f_equal. f_equal. f_equal.
    + f_equal. lia.
    + unfold climbed. rewrite seq_S, map_app, <- app_assoc. reflexivity.
Qed.
Lemma five a s n : 0 < n -> address_text a INET6_ADDRSTRLEN = Some s ->
  exists bs ps, run_str (machine0 n) (one_by_one (repeat (0, a) 5)) = Ok (mkMachine (mkRing bs 5) (quiet n), ps).
Proof.
  intros L T. unfold machine0. rewrite in_turn by (apply Forall_forall; intros c C; apply repeat_spec in C; subst c; exact L).
  cbn [repeat sequential]. unfold address_str, ring0. rewrite T. cbn. eauto.
Qed.
(** Behind the buffers, as far as there are threads *)
Theorem beyond a s k : address_text a INET6_ADDRSTRLEN = Some s ->
  exists l m ps, within (k + 2) l /\ run_str (machine0 (k + 2)) l = Ok (m, ps) /\
    at_ m (k + 1) = Wrote53 a (ADDRESS_BUFFERS + k) /\ run_str (machine0 (k + 2)) (l ++ [(k + 1, a)]) = UB.
Proof.
  intros T. destruct (five a s (k + 2) ltac:(lia) T) as (bs & ps & F).
  set (l := one_by_one (repeat (0, a) 5) ++ climb a (k + 2) ++ [(k + 1, a); (k + 1, a)]).
  assert (W : within (k + 2) l).
  { unfold l, within. apply Forall_app. split; [|apply Forall_app; split].
    - apply Forall_forall. intros c C. apply in_flat_map in C as (x & X & C). apply repeat_spec in X, C. subst. cbn. lia.
    - apply Forall_forall. intros c C. apply in_flat_map in C as (x & X & C). apply in_seq in X. destruct C as [<-|[<-|[]]]; cbn; lia.
    - constructor; [cbn; lia|constructor; [cbn; lia|constructor]]. }
  assert (Nth : nth (k + 1) (climbed a (k + 2) (k + 2)) Idle = Wrote50 a (5 + (k + 1))).
  { unfold climbed. rewrite app_nth1 by (rewrite map_length, seq_length; lia). rewrite (nth_indep _ _ (Wrote50 a (5 + 0))) by (rewrite map_length, seq_length; lia).
    rewrite (map_nth (fun j => Wrote50 a (5 + j))), seq_nth by lia. reflexivity. }
  assert (Len : k + 1 < length (climbed a (k + 2) (k + 2))) by (unfold climbed; rewrite app_length, map_length, seq_length; lia).
  assert (R : exists m, run_str (machine0 (k + 2)) l = Ok (m, ps) /\ at_ m (k + 1) = Wrote53 a (ADDRESS_BUFFERS + k)).
  { unfold l. rewrite run_app, F. cbn [bind]. rewrite run_app, climb_ok by lia. cbn [bind].
    rewrite run_cons. unfold step_str at 1, at_ at 1. cbn [m_threads m_ring]. rewrite Nth. cbn [bind]. unfold move. cbn [m_threads m_ring r_buffers r_idx].
    rewrite run_cons. unfold step_str at 1, at_ at 1. cbn [m_threads m_ring]. rewrite nth_upd_eq by exact Len. cbn [bind run_str]. unfold move. cbn [m_threads m_ring r_buffers r_idx].
    rewrite upd_upd. cbn [app]. rewrite app_nil_r. eexists. split; [reflexivity|]. unfold at_. cbn [m_threads]. rewrite nth_upd_eq by exact Len. f_equal. unfold ADDRESS_BUFFERS. lia. }
  destruct R as (m & R & A). exists l, m, ps. split; [exact W|]. split; [exact R|]. split; [exact A|].
  rewrite run_app, R. cbn [bind run_str]. unfold step_str. rewrite A. replace (ADDRESS_BUFFERS <=? ADDRESS_BUFFERS + k) with true by (symmetry; apply Nat.leb_le; lia). reflexivity.
Qed.
(** The same buffer for two threads *)
Theorem shared_buffer a b sa sb : address_text a INET6_ADDRSTRLEN = Some sa -> address_text b INET6_ADDRSTRLEN = Some sb ->
  exists l m, within 2 l /\ run_str (machine0 2) l = Ok (m, [(0, Some 0); (1, Some 0)]) /\ deref (m_ring m) 0 = sb.
Proof.
  intros A B. exists ([(0, a); (1, b)] ++ repeat (0, a) 4 ++ repeat (1, b) 4). eexists.
  split; [repeat constructor|]. cbn [repeat app]. unfold machine0, quiet, ring0. cbn [repeat].
  cbn. rewrite A. cbn. rewrite B. cbn. split; reflexivity.
Qed.

(** ** References *)
Lemma run_ref_app l1 : forall s l2, run_ref s (l1 ++ l2) = do s <- run_ref s l1; run_ref s l2.
Proof. induction l1 as [|[t o] l1 IH]; intros s l2; cbn [app run_ref]; [reflexivity|]. destruct (step_ref s t o) as [s1| | |]; cbn [bind]; auto. Qed.
Lemma none_nth n t : nth t (repeat (@None (refop * Z)) n) None = None.
Proof. revert t. induction n as [|n IH]; intros [|t]; cbn; auto. Qed.
Lemma one_ref n c t o : t < n ->
  run_ref (shared0 n c) [(t, o); (t, o)] =
  Ok (mkShared (balance c [(t, o)]) (match o with Ref => 0 | Unref => if (0 <? c - 1)%Z then 0 else 1 end) (repeat None n)).
Proof.
  intros L. unfold shared0. cbn [run_ref]. unfold step_ref at 1. cbn [s_freed s_in s_count]. rewrite none_nth. cbn [bind].
  unfold step_ref. cbn [s_freed s_in s_count]. rewrite nth_upd_eq by (now rewrite repeat_length).
  assert (E : upd (upd (repeat None n) t (Some (o, c))) t None = repeat (@None (refop * Z)) n).
  { rewrite upd_upd. assert (E := upd_same (repeat (@None (refop * Z)) n) t None). rewrite none_nth in E. apply E. now rewrite repeat_length. }
  destruct o; cbn [bind]; rewrite E; reflexivity.
Qed.
Theorem refs_in_turn n l : forall c, Forall (fun o => fst o < n) l -> (0 < c)%Z -> owned c l ->
  exists s, run_ref (shared0 n c) (one_by_one_ref l) = Ok s /\ s_count s = balance c l /\ (s_freed s = 1 <-> balance c l = 0%Z) /\ s_freed s <= 1.
Proof.
  induction l as [|[t o] l IH]; intros c W C O.
  - exists (shared0 n c). cbn. split; [reflexivity|]. split; [reflexivity|]. split; [|lia]. split; [discriminate|lia].
  - inversion W as [|? ? Wt Wl]; subst. cbn [fst] in Wt. change (one_by_one_ref ((t, o) :: l)) with ([(t, o); (t, o)] ++ one_by_one_ref l).
    rewrite run_ref_app, one_ref by exact Wt. cbn [bind]. set (c1 := balance c [(t, o)]).
    change (balance c ((t, o) :: l)) with (balance c1 l).
    assert (C0 : (0 <= c1)%Z) by (unfold c1; cbn; destruct o; lia).
    destruct (Z.eq_dec c1 0) as [Z0|Z0].
    + destruct l as [|x l].
      * cbn [one_by_one_ref flat_map run_ref]. eexists. split; [reflexivity|]. cbn [s_count s_freed]. change (balance c1 []) with c1. split; [reflexivity|].
        unfold c1 in *. cbn in Z0 |- *. destruct o; [lia|]. destruct (Z.ltb_spec 0 (c - 1)); [lia|]. split; [|lia]. tauto.
      * specialize (O 1 ltac:(cbn; lia)). change (balance c (firstn 1 ((t, o) :: x :: l))) with c1 in O. lia.
    + assert (Fz : match o with Ref => 0 | Unref => if (0 <? c - 1)%Z then 0 else 1 end = 0).
      { destruct o; [reflexivity|]. unfold c1 in Z0, C0. cbn in Z0, C0. destruct (Z.ltb_spec 0 (c - 1)); [reflexivity|lia]. }
      rewrite Fz. apply IH; [exact Wl|lia|]. intros k K. specialize (O (S k) ltac:(cbn; lia)). exact O.
Qed.
(** Two threads that release their references at the same time *)
Theorem leaked : exists ops sch s, schedule_of ops sch /\ owns 0 1 ops = 0%Z /\ owns 1 1 ops = 0%Z /\
  run_ref (shared0 2 2) sch = Ok s /\ s_freed s = 0.
Proof.
  exists [(0, Unref); (1, Unref)], [(0, Unref); (1, Unref); (0, Unref); (1, Unref)]. eexists.
  split; [intros [|[|t]]; reflexivity|]. split; [reflexivity|]. split; [reflexivity|]. split; reflexivity.
Qed.
(** Two threads that take one more at the same time *)
Theorem early : exists ops sch s, schedule_of ops sch /\ owns 0 1 ops = 0%Z /\ owns 1 1 ops = 1%Z /\
  run_ref (shared0 2 2) sch = Ok s /\ s_freed s = 1.
Proof.
  exists [(0, Ref); (1, Ref); (0, Unref); (0, Unref); (1, Unref)],
    [(0, Ref); (1, Ref); (0, Ref); (1, Ref); (0, Unref); (0, Unref); (0, Unref); (0, Unref); (1, Unref); (1, Unref)]. eexists.
  split; [intros [|[|t]]; reflexivity|]. split; [reflexivity|]. split; [reflexivity|]. split; reflexivity.
Qed.
