(** Threads that share the library (C91). *)
From Coq Require Import String.
From Coq Require Import NArith ZArith List Bool Arith Lia.
From Verif Require Import Base ModelAddress ModelText SpecText ModelThreads SpecThreads LemmasThreads.
Import ListNotations.
Open Scope nat_scope.

(** Any number of threads and any calls of loc_address_str that do not overlap: they are as the calls of one thread (C39), and no buffer
    is written to that does not exist. *)
Theorem C91_locked : forall n l, within n l ->
  exists r ps, run_str (machine0 n) (one_by_one l) = Ok (mkMachine r (quiet n), ps) /\ sequential ring0 l = Ok (r, ps) /\
    address_strs ring0 (map (fun c => Some (snd c)) l) = Ok r /\ map fst ps = map fst l /\
    Forall (fun p => match snd p with Some i => i < ADDRESS_BUFFERS | None => True end) ps.
Proof. exact locked. Qed.
Print Assumptions C91_locked.

(** If they overlap, a thread writes behind the buffers; the more threads there are, the farther behind. *)
Theorem C91_beyond_refuted : forall a s k, address_text a INET6_ADDRSTRLEN = Some s ->
  exists l m ps, within (k + 2) l /\ run_str (machine0 (k + 2)) l = Ok (m, ps) /\
    at_ m (k + 1) = Wrote53 a (ADDRESS_BUFFERS + k) /\ run_str (machine0 (k + 2)) (l ++ [(k + 1, a)]) = UB.
Proof. exact beyond. Qed.
Print Assumptions C91_beyond_refuted.

(** Or two threads get the same buffer at once, and one of them sees the address of the other, for all addresses *)
Theorem C91_buffer_refuted : forall a b sa sb, address_text a INET6_ADDRSTRLEN = Some sa -> address_text b INET6_ADDRSTRLEN = Some sb ->
  exists l m, within 2 l /\ run_str (machine0 2) l = Ok (m, [(0, Some 0); (1, Some 0)]) /\ deref (m_ring m) 0 = sb.
Proof. exact shared_buffer. Qed.
Print Assumptions C91_buffer_refuted.

(** References that are taken and released by threads one after the other: the object is released when there is none left, and once. *)
Theorem C91_refs_locked : forall n l c, Forall (fun o => fst o < n) l -> (0 < c)%Z -> owned c l ->
  exists s, run_ref (shared0 n c) (one_by_one_ref l) = Ok s /\ s_count s = balance c l /\ (s_freed s = 1 <-> balance c l = 0%Z) /\ s_freed s <= 1.
Proof. exact refs_in_turn. Qed.
Print Assumptions C91_refs_locked.

(** At the same time: two threads release all their references, and the object is not released. *)
Theorem C91_leak_refuted : exists ops sch s, schedule_of ops sch /\ owns 0 1 ops = 0%Z /\ owns 1 1 ops = 0%Z /\
  run_ref (shared0 2 2) sch = Ok s /\ s_freed s = 0.
Proof. exact leaked. Qed.
Print Assumptions C91_leak_refuted.

(** Or one is released although a thread has a reference. Threads that share no other object share the context, of which every
    object has a reference. *)
Theorem C91_early_refuted : exists ops sch s, schedule_of ops sch /\ owns 0 1 ops = 0%Z /\ owns 1 1 ops = 1%Z /\
  run_ref (shared0 2 2) sch = Ok s /\ s_freed s = 1.
Proof. exact early. Qed.
Print Assumptions C91_early_refuted.

(** ** Cases *)
Definition a0 : addr := [0;0;0;0;0;0;0;0;0;0;255;255;10;0;0;1]%N.
Definition b0 : addr := [32;1;13;184;0;0;0;0;0;0;0;0;0;0;0;1]%N.
Example C91_case : address_text a0 INET6_ADDRSTRLEN = Some (txt "10.0.0.1") /\ address_text b0 INET6_ADDRSTRLEN = Some (txt "2001:db8::1") /\
  (exists m, run_str (machine0 2) (one_by_one [(0, a0); (1, b0)]) = Ok (m, [(0, Some 0); (1, Some 1)]) /\
     deref (m_ring m) 0 = txt "10.0.0.1" /\ deref (m_ring m) 1 = txt "2001:db8::1") /\
  owned 1 [(0, Ref); (1, Unref); (0, Unref)] /\ balance 1 [(0, Ref); (1, Unref); (0, Unref)] = 0%Z.
Proof.
  split; [vm_compute; reflexivity|]. split; [vm_compute; reflexivity|]. split; [eexists; split; [vm_compute; reflexivity|]; split; vm_compute; reflexivity|].
  split; [|reflexivity]. intros [|[|[|k]]] K; cbn in *; try lia.
Qed.
