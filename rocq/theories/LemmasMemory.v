(** Proofs about running out of memory. *)
From Coq Require Import NArith ZArith List Bool Arith Lia ZifyBool ZifyNat ZifyN.
From Verif Require Import Base ModelMemory SpecMemory.
Import ListNotations.
Open Scope nat_scope.

Section Memory.
Variable ok : nat -> bool.

Lemma work_first a n : all_work ok a (S n) -> ok a = true /\ all_work ok (S a) n.
Proof.
  intros H. split.
  - specialize (H 0 ltac:(lia)). now rewrite Nat.add_0_r in H.
  - intros i L. specialize (H (S i) ltac:(lia)). now rewrite <- Nat.add_succ_comm in H.
Qed.
Lemma work_step a n : ok a = true -> all_work ok (S a) n -> all_work ok a (S n).
Proof.
  intros A H [|i] L; [now rewrite Nat.add_0_r|]. rewrite <- Nat.add_succ_comm. apply H. lia.
Qed.
Lemma work_none a : all_work ok a 0.
Proof. intros i L. lia. Qed.

Ltac ws := first [apply work_none | apply work_step; [assumption|ws]].
Ltac steps := repeat match goal with
  | |- context [ok ?x] => let E := fresh "E" in destruct (ok x) eqn:E; cbn
  end.
Ltac run := unfold writer_new, parse_key, tree_new, object_new, alloc, writer_free, tree_free, object_free, block_free; cbn; steps.

Lemma writer_cases k1 k2 m :
  match writer_new ok k1 k2 m with
  | Ok (Some w, m') => keys_ok k1 k2 /\ all_work ok (m_calls m) (needed k1 k2) /\ m_blocks m' = m_blocks m + needed k1 k2 /\
                       exists m2, writer_free w m' = Ok m2 /\ same m m2
  | Ok (None, m') => same m m' /\ ~ (keys_ok k1 k2 /\ all_work ok (m_calls m) (needed k1 k2))
  | UB => all_work ok (m_calls m) 4 /\ ok (m_calls m + 4) = false
  | _ => False
  end.
Proof.
  destruct m as [b c d n]. unfold same, keys_ok, needed.
  replace (m_calls _ + 4) with (S (S (S (S n)))) by (cbn; lia).
  destruct k1 as [[|]|], k2 as [[|]|]; run.
  all: try (split; [ws|(assumption || reflexivity)]).
  all: try (split; [now split|]; intros [[K1 K2] W]; repeat (apply work_first in W; destruct W as [? W]); congruence).
  all: split; [now split|]; split; [ws|]; split; [lia|];
    eexists; split; [reflexivity|]; cbn; repeat split; lia.
Qed.

Lemma writer_made k1 k2 m : keys_ok k1 k2 -> all_work ok (m_calls m) (needed k1 k2) ->
  exists w m', writer_new ok k1 k2 m = Ok (Some w, m') /\ m_blocks m' = m_blocks m + needed k1 k2 /\
    exists m2, writer_free w m' = Ok m2 /\ same m m2.
Proof.
  intros K W. pose proof (writer_cases k1 k2 m) as H. destruct (writer_new ok k1 k2 m) as [[[w|] m']|z| |]; try easy.
  - exists w, m'. intuition.
  - destruct H as [_ H]. now contradiction H.
  - exfalso. destruct H as [_ H]. rewrite (W 4) in H; [discriminate|]. unfold needed. lia.
Qed.
Lemma writer_refused k1 k2 m m' : writer_new ok k1 k2 m = Ok (None, m') -> same m m' /\ ~ (keys_ok k1 k2 /\ all_work ok (m_calls m) (needed k1 k2)).
Proof. intros E. pose proof (writer_cases k1 k2 m) as H. now rewrite E in H. Qed.
Lemma writer_crashes k1 k2 m : writer_new ok k1 k2 m = UB <-> all_work ok (m_calls m) 4 /\ ok (m_calls m + 4) = false.
Proof.
  split.
  - intros E. pose proof (writer_cases k1 k2 m) as H. now rewrite E in H.
  - intros [W F]. do 4 (apply work_first in W; destruct W as [? W]). destruct m as [b c d n]. cbn in *.
    replace (n + 4) with (S (S (S (S n)))) in F by lia.
    unfold writer_new, tree_new, object_new, alloc, tree_free; cbn. repeat match goal with H : ok _ = _ |- _ => rewrite H; cbn; clear H end. reflexivity.
Qed.

Lemma enumerator_cases m : let (r, m') := enumerator_new ok m in
  if r then all_work ok (m_calls m) 3 /\ m_db m' = S (m_db m) /\ m_blocks m' = m_blocks m + 3 /\ same m (enumerator_free true true m')
  else ~ all_work ok (m_calls m) 3 /\ same m m'.
Proof.
  destruct m as [b c d n]. unfold enumerator_new, enumerator_free, object_new, alloc, object_free, block_free, same. cbn. steps.
  all: try (split; [intros W; repeat (apply work_first in W; destruct W as [? W]); congruence|now split]).
  split; [ws|]. cbn. repeat split; lia.
Qed.

(** ** The tree *)
Lemma existing_eq t b path : existing t (b :: path) = match child b t with Some c => S (existing c path) | None => 0 end.
Proof. destruct t as [[z|] [o|]], b; reflexivity. Qed.
Lemma existing_le path : forall t, existing t path <= length path.
Proof. induction path as [|b path IH]; intros t; [cbn; lia|]. rewrite existing_eq. destruct (child b t) as [c|]; cbn; [specialize (IH c)|]; lia. Qed.
Lemma existing_empty path : existing (Node None None) path = 0.
Proof. destruct path as [|[] path]; reflexivity. Qed.
Lemma child_with b t c : child b (with_child b t c) = Some c.
Proof. destruct t, b; reflexivity. Qed.
Lemma child_other b b' t c : b <> b' -> child b' (with_child b t c) = child b' t.
Proof. destruct t, b, b'; try reflexivity; intros H; now contradiction H. Qed.
Lemma nodes_with b t c : nodes (with_child b t c) + (match child b t with Some x => nodes x | None => 0 end) = nodes t + nodes c.
Proof. destruct t as [z o], b; cbn [with_child child nodes]; destruct z, o; lia. Qed.

Lemma keeps_with b t c c' : child b t = Some c -> keeps c c' -> keeps t (with_child b t c').
Proof.
  intros E K [|b' q]; [cbn; lia|]. rewrite !existing_eq. destruct (Bool.bool_dec b b') as [<-|N].
  - rewrite E, child_with. specialize (K q). lia.
  - rewrite (child_other _ _ _ _ N). destruct (child b' t); lia.
Qed.
Lemma keeps_new b t c' : child b t = None -> keeps t (with_child b t c').
Proof.
  intros E [|b' q]; [cbn; lia|]. rewrite !existing_eq. destruct (Bool.bool_dec b b') as [<-|N].
  - rewrite E. lia.
  - rewrite (child_other _ _ _ _ N). destruct (child b' t); lia.
Qed.


Lemma path_made path : forall t m, let k := length path - existing t path in all_work ok (m_calls m) k ->
  exists t', get_path ok t path m = Ok (true, t', after m k k) /\ nodes t' = nodes t + k /\ existing t' path = length path /\ keeps t t'.
Proof.
  induction path as [|b path IH]; intros t m k W.
  - exists t. cbn in *. subst k. unfold after. rewrite !Nat.add_0_r. destruct m. repeat split. intros q. lia.
  - cbn [get_path]. subst k. rewrite existing_eq in *. destruct (child b t) as [c|] eqn:C.
    + cbn [length Nat.sub] in *. destruct (IH c m W) as (t' & E & N & X & K). rewrite E. cbn [bind]. eexists. split; [reflexivity|].
      pose proof (nodes_with b t t') as Q. rewrite C in Q. rewrite existing_eq, child_with. repeat split; [lia|lia|now apply keeps_with with c].
    + cbn [length] in *. rewrite Nat.sub_0_r in *. apply work_first in W as [W1 W2]. unfold object_new, alloc. rewrite W1. cbn [m_blocks m_ctx m_db m_calls].
      specialize (IH (Node None None) (mkMem (S (m_blocks m)) (S (m_ctx m)) (m_db m) (S (m_calls m)))). cbn [m_blocks m_ctx m_db m_calls] in IH.
      rewrite existing_empty, Nat.sub_0_r in IH. destruct (IH W2) as (t' & E & N & X & K). rewrite E. cbn [bind]. unfold after. cbn [m_blocks m_ctx m_db m_calls].
      exists (with_child b t t'). split; [do 2 f_equal; f_equal; lia|]. pose proof (nodes_with b t t') as Q. rewrite C in Q.
      rewrite existing_eq, child_with. change (nodes (Node None None)) with 1 in N. repeat split; [lia|lia|now apply keeps_new].
Qed.

Lemma path_failed path : forall t m j, let k := length path - existing t path in j < k -> all_work ok (m_calls m) j -> ok (m_calls m + j) = false ->
  if S j =? k then exists t', get_path ok t path m = Ok (false, t', after m j (S j)) /\ nodes t' = nodes t + j /\ keeps t t'
  else get_path ok t path m = UB.
Proof.
  induction path as [|b path IH]; intros t m j k L W F; [cbn in *; lia|].
  cbn [get_path]. subst k. rewrite existing_eq in *. destruct (child b t) as [c|] eqn:C.
  - cbn [length Nat.sub] in *. specialize (IH c m j L W F). destruct (S j =? _).
    + destruct IH as (t' & E & N & K). rewrite E. cbn [bind]. eexists. split; [reflexivity|]. pose proof (nodes_with b t t') as Q. rewrite C in Q.
      split; [lia|now apply keeps_with with c].
    + now rewrite IH.
  - cbn [length] in *. rewrite Nat.sub_0_r in *. destruct j as [|j].
    + rewrite Nat.add_0_r in F. unfold object_new, alloc. rewrite F. destruct path as [|b' path]; cbn.
      * exists t. unfold after. split; [do 2 f_equal; f_equal; lia|]. split; [lia|]. intros q. lia.
      * reflexivity.
    + apply work_first in W as [W1 W2]. unfold object_new, alloc. rewrite W1. cbn [m_blocks m_ctx m_db m_calls].
      specialize (IH (Node None None) (mkMem (S (m_blocks m)) (S (m_ctx m)) (m_db m) (S (m_calls m))) j). cbn [m_blocks m_ctx m_db m_calls] in IH.
      rewrite existing_empty, Nat.sub_0_r in IH. rewrite <- Nat.add_succ_comm in F. specialize (IH ltac:(lia) W2 F).
      change (S (S j) =? S (length path)) with (S j =? length path).
      destruct (S j =? length path).
      * destruct IH as (t' & E & N & K). rewrite E. cbn [bind]. eexists. unfold after. cbn [m_blocks m_ctx m_db m_calls]. split; [do 2 f_equal; f_equal; lia|].
        pose proof (nodes_with b t t') as Q. rewrite C in Q. change (nodes (Node None None)) with 1 in N. split; [lia|now apply keeps_new].
      * now rewrite IH.
Qed.

(** ** The pool *)
Lemma appends_fine (every : forall n, ok n = true) l : forall p m, pool_inv p -> Forall (fun n => 0 < n <= POOL_BLOCK)%N l ->
  exists p' m', pool_appends ok l p m = Ok (repeat true (length l), p', m') /\ pool_inv p' /\
    p_length p' = (p_length p + fold_right N.add 0 l)%N /\ m_ctx m' = m_ctx m /\ m_db m' = m_db m /\
    m_blocks m' + (if p_blocks p then 1 else 0) = m_blocks m + (if p_blocks p' then 1 else 0).
Proof.
  induction l as [|n l IH]; intros p m V Q.
  - exists p, m. cbn. repeat split; try apply V; try lia.
  - inversion Q as [|? ? Q1 Q2]; subst. cbn [pool_appends]. destruct p as [pb ps pl], m as [b c d k]. destruct V as [V1 V2]. cbn in V1, V2.
    unfold pool_append. cbn [p_size p_length].
    destruct (ps <? pl + n)%N eqn:G.
    + unfold pool_grow. cbn [p_size p_length p_blocks]. destruct pb.
      * cbn [m_calls]. rewrite every. cbn [negb p_blocks p_size p_length orb]. replace (ps + POOL_BLOCK <? pl + n)%N with false by lia.
        cbn [bind]. edestruct IH as (p' & m' & E & V' & A & B & D & F); [| exact Q2 | rewrite E]; [split; cbn; [lia|discriminate]|].
        cbn in *. exists p', m'. repeat split; try apply V'; try assumption; lia.
      * unfold alloc. cbn [m_calls]. rewrite every. cbn [negb p_blocks p_size p_length orb]. replace (ps + POOL_BLOCK <? pl + n)%N with false by lia.
        cbn [bind]. edestruct IH as (p' & m' & E & V' & A & B & D & F); [| exact Q2 | rewrite E]; [split; cbn; [lia|discriminate]|].
        cbn in *. exists p', m'. repeat split; try apply V'; try assumption; lia.
    + cbn [negb p_blocks p_size p_length]. destruct pb; [|specialize (V2 eq_refl); lia]. cbn [negb orb]. rewrite G. cbn [bind].
      edestruct IH as (p' & m' & E & V' & A & B & D & F); [| exact Q2 | rewrite E]; [split; cbn; [lia|discriminate]|].
      cbn in *. exists p', m'. repeat split; try apply V'; try assumption; lia.
Qed.

(** After an addition that failed: the block is lost, and the next one crashes *)
Lemma append_failed n p m : pool_inv p -> p_blocks p = true -> (p_size p < p_length p + n)%N -> ok (m_calls m) = false ->
  exists p' m', pool_append ok n p m = Ok (false, p', m') /\ m_blocks m' = m_blocks m /\ m_blocks (pool_free p' m') = pred (m_blocks m) /\
    forall n', (0 < n' <= POOL_BLOCK)%N -> pool_append ok n' p' m' = UB.
Proof.
  intros [V _] B L F. destruct p as [pb ps pl], m as [b c d k]. cbn in *. subst pb. unfold pool_append, pool_grow. cbn [p_size p_length p_blocks m_calls].
  replace (ps <? pl + n)%N with true by lia. rewrite F. cbn [negb]. do 2 eexists. split; [reflexivity|]. split; [reflexivity|]. split; [reflexivity|].
  intros n' L'. cbn [p_size p_length p_blocks]. replace (ps + POOL_BLOCK <? pl + n')%N with false by lia. reflexivity.
Qed.
End Memory.
