(** C93: running out of memory while objects are made. *)
From Coq Require Import NArith ZArith List Bool Arith Lia.
From Verif Require Import Base ModelMemory SpecMemory LemmasMemory.
Import ListNotations.
Open Scope nat_scope.

(** A writer is made if all allocations work and the files have keys; dropping it gives everything back *)
Theorem C93_writer : forall ok k1 k2 m, keys_ok k1 k2 -> all_work ok (m_calls m) (needed k1 k2) ->
  exists w m', writer_new ok k1 k2 m = Ok (Some w, m') /\ m_blocks m' = m_blocks m + needed k1 k2 /\
    exists m2, writer_free w m' = Ok m2 /\ same m m2.
Proof. exact writer_made. Qed.
Print Assumptions C93_writer.

(** If it is refused nothing remains, and something did not work *)
Theorem C93_refused : forall ok k1 k2 m m', writer_new ok k1 k2 m = Ok (None, m') ->
  same m m' /\ ~ (keys_ok k1 k2 /\ all_work ok (m_calls m) (needed k1 k2)).
Proof. exact writer_refused. Qed.
Print Assumptions C93_refused.

(** It crashes exactly if there is no memory for the root of the tree *)
Theorem C93_crash : forall ok k1 k2 m, writer_new ok k1 k2 m = UB <-> all_work ok (m_calls m) 4 /\ ok (m_calls m + 4) = false.
Proof. exact writer_crashes. Qed.
Print Assumptions C93_crash.
Theorem C93_crash_refuted : exists ok k1 k2 m, keys_ok k1 k2 /\ writer_new ok k1 k2 m = UB.
Proof. exists (fun n => negb (n =? 4)), None, None, (mkMem 0 1 0 0). now repeat split. Qed.
Print Assumptions C93_crash_refuted.

(** Enumerators: all or nothing *)
Theorem C93_enumerator : forall ok m, let (r, m') := enumerator_new ok m in
  if r then all_work ok (m_calls m) 3 /\ m_db m' = S (m_db m) /\ m_blocks m' = m_blocks m + 3 /\ same m (enumerator_free true true m')
  else ~ all_work ok (m_calls m) 3 /\ same m m'.
Proof. exact enumerator_cases. Qed.
Print Assumptions C93_enumerator.

(** A path in the tree: exactly the nodes that are missing are made, and no path is lost *)
Theorem C93_path : forall ok path t m, let k := length path - existing t path in all_work ok (m_calls m) k ->
  exists t', get_path ok t path m = Ok (true, t', after m k k) /\ nodes t' = nodes t + k /\ existing t' path = length path /\ keeps t t'.
Proof. exact path_made. Qed.
Print Assumptions C93_path.

(** If there is no memory for the last of them it is reported, and what was made is in the tree; if there is none for another one it crashes *)
Theorem C93_path_failed : forall ok path t m j, let k := length path - existing t path in
  j < k -> all_work ok (m_calls m) j -> ok (m_calls m + j) = false ->
  if S j =? k then exists t', get_path ok t path m = Ok (false, t', after m j (S j)) /\ nodes t' = nodes t + j /\ keeps t t'
  else get_path ok t path m = UB.
Proof. exact path_failed. Qed.
Print Assumptions C93_path_failed.
Theorem C93_path_refuted : exists ok path t m, get_path ok t path m = UB.
Proof. exists (fun n => n <? 7), (repeat true 96), (Node None None), (mkMem 2 3 0 0). reflexivity. Qed.
Print Assumptions C93_path_refuted.

(** Strings up to the size of a block are added to a pool as long as there is memory *)
Theorem C93_pool : forall ok, (forall n, ok n = true) -> forall l p m, pool_inv p -> Forall (fun n => 0 < n <= POOL_BLOCK)%N l ->
  exists p' m', pool_appends ok l p m = Ok (repeat true (length l), p', m') /\ pool_inv p' /\
    p_length p' = (p_length p + fold_right N.add 0 l)%N /\ m_ctx m' = m_ctx m /\ m_db m' = m_db m /\
    m_blocks m' + (if p_blocks p then 1 else 0) = m_blocks m + (if p_blocks p' then 1 else 0).
Proof. exact appends_fine. Qed.
Print Assumptions C93_pool.

(** If there is none once, the strings so far are never released and the next string crashes, whether there is memory again or not *)
Theorem C93_pool_failed : forall ok n p m, pool_inv p -> p_blocks p = true -> (p_size p < p_length p + n)%N -> ok (m_calls m) = false ->
  exists p' m', pool_append ok n p m = Ok (false, p', m') /\ m_blocks m' = m_blocks m /\ m_blocks (pool_free p' m') = pred (m_blocks m) /\
    forall n', (0 < n' <= POOL_BLOCK)%N -> pool_append ok n' p' m' = UB.
Proof. exact append_failed. Qed.
Print Assumptions C93_pool_failed.
Theorem C93_pool_refuted : exists ok l p m, pool_inv p /\ Forall (fun n => 0 < n <= POOL_BLOCK)%N l /\ pool_appends ok l p m = UB.
Proof.
  exists (fun n => negb (n =? 1)), [524288; 5; 9]%N, (mkSpool false 0 0), (mkMem 1 2 0 0).
  split; [split; cbn; [lia|reflexivity]|]. split; [repeat constructor; unfold POOL_BLOCK; lia|]. reflexivity.
Qed.
Print Assumptions C93_pool_refuted.

Definition start93 : mem := mkMem 1 1 1 3.
Example C93_case :
  keys_ok (Some true) None /\ all_work (fun _ => true) 3 (needed (Some true) None) /\
  (exists w, writer_new (fun _ => true) (Some true) None start93 = Ok (Some w, mkMem 9 7 1 11)) /\
  writer_new (fun n => n <? 9) (Some true) None start93 = Ok (None, mkMem 1 1 1 10) /\
  writer_new (fun _ => true) (Some true) (Some false) start93 = Ok (None, mkMem 1 1 1 11) /\
  enumerator_new (fun n => negb (n =? 5)) start93 = (false, mkMem 1 1 1 6) /\
  existing (Node (Some (Node None None)) None) [false; true; true] = 1 /\
  get_path (fun n => n <? 4) (Node (Some (Node None None)) None) [false; true; true] start93 =
    Ok (false, Node (Some (Node None (Some (Node None None)))) None, mkMem 2 2 1 5) /\
  pool_appends (fun _ => true) [1; 524288; 7]%N (mkSpool false 0 0) start93 = Ok ([true; true; true], mkSpool true 1048576 524296, mkMem 2 1 1 5).
Proof.
  split; [now split|]. split; [intros i L; reflexivity|].
  split; [exists (mkW true true true true true true false); vm_compute; reflexivity|]. repeat split; reflexivity.
Qed.
