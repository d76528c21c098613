(** C86: replacing the file of the database while others use it.

    [l] is what happens, in any order: updates are started, go on for a step or are killed,
    programs open the database. [i0] is the file that is there in the beginning. The theorems
    hold for all mirrors, times, answers of DNS, keys and ways to decompress. *)
From Coq Require Import NArith ZArith List Bool Arith Lia.
From Verif Require Import Base ModelDatabase ModelVerify ModelDownload LemmasDownload ModelUpdate SpecUpdate ModelReplace SpecReplace LemmasReplace.
Import ListNotations.
Open Scope nat_scope.

(** At every moment, also if updates are killed, there is at the path of the database what was
    there in the beginning or a whole file that one of the updates has downloaded, verified with the
    key and found to be as recent as DNS says.
    Missing: updates that cannot rename the file and others that write it, see below. *)
Theorem C86_atomic_partial : forall St init decompress shown k i0 l, Forall careful l ->
  let w := happens St init decompress shown k (first_world St i0) l in
  at_path (w_fs w) = initially i0 \/
  exists p f, In p (w_procs w) /\ ended p 0 /\ downloaded St init decompress shown k (p_job p) = Returned f /\
    at_path (w_fs w) = File f /\ good k (j_dns (p_job p)) f.
Proof. exact atomic. Qed.
Print Assumptions C86_atomic_partial.

(** Everyone may read it. *)
Theorem C86_readable_partial : forall St init decompress shown k i0 l n, Forall careful l ->
  let w := happens St init decompress shown k (first_world St i0) l in
  find (w_fs w) The_db = Some n -> everyone (get (w_fs w) n) = true.
Proof. exact readable. Qed.
Print Assumptions C86_readable_partial.

(** What a program has opened stays as it is, whatever happens later, and it is what was there in
    the beginning or a file that was verified.
    Missing: as above. *)
Theorem C86_readers_partial : forall St init decompress shown k i0 l l' n, Forall careful l -> Forall careful l' ->
  let w := happens St init decompress shown k (first_world St i0) l in
  In n (w_readers w) ->
  get (w_fs (happens St init decompress shown k w l')) n = get (w_fs w) n /\
  (i0 = Some (data (get (w_fs w) n)) \/ exists j, In (Start j) l /\ good k (j_dns j) (data (get (w_fs w) n))).
Proof.
  exact (fun St init decompress shown k i0 l l' n C C' R =>
    conj (readers_kept St init decompress shown k i0 l l' n C C' R) (readers_good St init decompress shown k i0 l n C R)).
Qed.
Print Assumptions C86_readers_partial.

(** Whatever the others do, an update that ends has the exit code of C64 for a file that was
    there at some time, and one that crashes would have crashed there. *)
Theorem C86_exits : forall St init decompress shown k i0 l p, Forall careful l ->
  let w0 := first_world St i0 in
  In p (w_procs (happens St init decompress shown k w0 l)) ->
  (forall c, ended p c ->
     (exists u, outcome_of St init decompress shown k (p_job p) (p_seen p) = Ok u /\ exit_code u = c) /\
     exists l1 l2, l = l1 ++ l2 /\ p_seen p = at_path (w_fs (happens St init decompress shown k w0 l1))) /\
  (p_pc p = Crashed -> outcome_of St init decompress shown k (p_job p) (p_seen p) = UB).
Proof.
  exact (fun St init decompress shown k i0 l p C Ip =>
    conj (fun c E => conj (exits St init decompress shown k i0 l p c C Ip E)
            (seen_there St init decompress shown k i0 l p C Ip
               (fun B => ltac:(unfold ended in E; rewrite B in E; discriminate E))
               (fun B => ltac:(unfold ended in E; rewrite B in E; discriminate E))))
         (crashes St init decompress shown k i0 l p C Ip)).
Qed.
Print Assumptions C86_exits.

(** An update that runs without others, after whatever has happened before, does what C64 says. *)
Theorem C86_alone : forall St init decompress shown k i0 l j n, Forall careful l -> j_rename j = true -> effort j <= n ->
  let w := happens St init decompress shown k (first_world St i0) l in
  let i := length (w_procs w) in
  let w' := happens St init decompress shown k w (Start j :: repeat (Step i) n) in
  exists p, nth_error (w_procs w') i = Some p /\
    match outcome_of St init decompress shown k j (at_path (w_fs w)) with
    | Ok u => ended p (exit_code u) /\ at_path (w_fs w') = after u
    | _ => p_pc p = Crashed /\ at_path (w_fs w') = at_path (w_fs w)
    end.
Proof. exact update_alone. Qed.
Print Assumptions C86_alone.

(** An update comes to an end when it was let go on as often as it has work; the others do not
    matter. *)
Theorem C86_ends : forall St init decompress shown k i0 l j l', Forall careful l -> j_rename j = true -> Forall careful l' ->
  let w := happens St init decompress shown k (first_world St i0) l in
  let i := length (w_procs w) in
  effort j <= turns i l' ->
  exists p, nth_error (w_procs (happens St init decompress shown k w (Start j :: l'))) i = Some p /\ stopped p.
Proof. exact comes_to_end. Qed.
Print Assumptions C86_ends.

(** Temporary files are those of updates that still run, were killed, or ended with an exception;
    the latter have left what they had received. *)
Theorem C86_files : forall St init decompress shown k i0 l n m, Forall careful l ->
  let w := happens St init decompress shown k (first_world St i0) l in
  find (w_fs w) (Tmp n) = Some m ->
  m = n /\ exists p, In p (w_procs w) /\ p_tmp p = Some n /\
    (~ stopped p \/ p_pc p = Killed \/
     exists c, ended p c /\ downloaded St init decompress shown k (p_job p) = Exception (data (get (w_fs w) n))).
Proof. exact files. Qed.
Print Assumptions C86_files.

Theorem C86_left : forall St init decompress shown k i0 l p c f, Forall careful l ->
  let w := happens St init decompress shown k (first_world St i0) l in
  In p (w_procs w) -> ended p c -> decision St shown (p_job p) (p_seen p) = Creating ->
  downloaded St init decompress shown k (p_job p) = Exception f ->
  exists n, p_tmp p = Some n /\ find (w_fs w) (Tmp n) = Some n /\ data (get (w_fs w) n) = f.
Proof. exact left_over. Qed.
Print Assumptions C86_left.

(** Nobody removes these files any more. *)
Theorem C86_forever_refuted : forall St init decompress shown k i0 l l' p n, Forall careful l -> Forall careful l' ->
  let w := happens St init decompress shown k (first_world St i0) l in
  In p (w_procs w) -> stopped p -> p_tmp p = Some n ->
  let w' := happens St init decompress shown k w l' in
  find (w_fs w') (Tmp n) = Some n /\ get (w_fs w') n = get (w_fs w) n.
Proof. exact forever. Qed.
Print Assumptions C86_forever_refuted.

(** So they become more and more: one for each time that the first mirror could not be
    reached. *)
Theorem C86_litter_refuted : forall St init decompress shown k m, exists l, Forall careful l /\
  let w := happens St init decompress shown k (first_world St None) l in
  length (dir (w_fs w)) = m /\ find (w_fs w) The_db = None /\ (forall p, In p (w_procs w) -> ended p 1) /\ length l = 4 * m.
Proof. exact litter. Qed.
Print Assumptions C86_litter_refuted.

(** Concrete runs *)
Definition runs (i0 : option (list N)) (l : list event) : world unit := happens unit tt plain (fun _ => true) key (first_world unit i0) l.
Definition latest (t : N) (rename : bool) : job := mkJob None 0 (Some t) [HttpError 404; Body (chunks (signed t)) false] rename false false.
Definition on (i n : nat) : list event := repeat (Step i) n.

Example C86_case :
  let l := [Open; Start (latest 5 true); Start (latest 10 true)] ++ on 0 4 ++ on 1 9 ++ [Kill 1; Open] ++ on 0 14 ++ [Open] in
  let w := runs (Some (signed 3)) l in
  Forall careful l /\ at_path (w_fs w) = File (signed 5) /\ w_readers w = [0; 0; 1] /\ data (get (w_fs w) 0) = signed 3 /\
  map p_pc (w_procs w) = [Ended 0; Killed] /\ map p_tmp (w_procs w) = [None; Some 2] /\ find (w_fs w) (Tmp 2) = Some 2 /\
  everyone (get (w_fs w) 2) = false /\ effort (latest 5 true) = 18.
Proof.
  cbn zeta. split; [repeat (constructor; [exact Logic.I || reflexivity|]); constructor|].
  split; [vm_compute; reflexivity|]. split; [vm_compute; reflexivity|]. split; [vm_compute; reflexivity|]. split; [vm_compute; reflexivity|].
  split; [vm_compute; reflexivity|]. split; [vm_compute; reflexivity|]. split; vm_compute; reflexivity.
Qed.
Example C86_exception_case :
  let j := mkJob None 0 None [Body [[1; 2; 3]%N] false] true false true in
  let w := runs None (Start j :: on 0 20) in
  map p_pc (w_procs w) = [Ended 2] /\ find (w_fs w) (Tmp 0) = Some 0 /\ data (get (w_fs w) 0) = [1; 2; 3]%N /\
  decision unit (fun _ => true) j Missing = Creating /\ downloaded unit tt plain (fun _ => true) key j = Exception [1; 2; 3]%N.
Proof.
  cbn zeta. split; [vm_compute; reflexivity|]. split; [vm_compute; reflexivity|]. split; [vm_compute; reflexivity|].
  split; vm_compute; reflexivity.
Qed.

(** Two updates at the same time: the one that had asked DNS before replaces the newer database by an older
    one; both report success. *)
Theorem C86_newer_refuted : exists l l', Forall careful (l ++ l') /\
  at_path (w_fs (runs (Some (signed 3)) l)) = File (signed 10) /\
  at_path (w_fs (runs (Some (signed 3)) (l ++ l'))) = File (signed 5) /\
  map p_pc (w_procs (runs (Some (signed 3)) (l ++ l'))) = [Ended 0; Ended 0].
Proof.
  exists ([Start (latest 5 true); Step 0; Start (latest 10 true)] ++ on 1 18), (on 0 18).
  split; [repeat (constructor; [exact Logic.I || reflexivity|]); constructor|].
  split; [vm_compute; reflexivity|]. split; vm_compute; reflexivity.
Qed.
Print Assumptions C86_newer_refuted.

(** If the file cannot be renamed (another file is mounted at the path, say) it is copied into the
    file that programs have opened: this changes below them, and when the update is killed there is no database
    any more. *)
Theorem C86_copy_refuted : exists l l' n g, let w := runs (Some (signed 3)) l in let w' := runs (Some (signed 3)) (l ++ l') in
  In n (w_readers w) /\ data (get (w_fs w) n) = signed 3 /\ data (get (w_fs w') n) = g /\ at_path (w_fs w') = File g /\
  db_open g = Err 1 /\ map p_pc (w_procs w') = [Killed].
Proof.
  exists [Open], (Start (latest 10 false) :: on 0 13 ++ [Kill 0]), 0, []. cbn zeta.
  split; [vm_compute; auto|]. split; [vm_compute; reflexivity|]. split; [vm_compute; reflexivity|].
  split; [vm_compute; reflexivity|]. split; vm_compute; reflexivity.
Qed.
Print Assumptions C86_copy_refuted.
Example C86_copy_case : let w := runs (Some (signed 3)) (Start (latest 10 false) :: on 0 200) in
  at_path (w_fs w) = File (signed 10) /\ map p_pc (w_procs w) = [Ended 0] /\ dir (w_fs w) = [(The_db, 0)].
Proof. cbn zeta. split; [vm_compute; reflexivity|]. split; vm_compute; reflexivity. Qed.

(** Writer.write empties the file at its path: what programs have opened is gone. *)
Theorem C86_write_refuted : forall St init decompress shown k w i p n pieces,
  nth_error (w_procs w) i = Some p -> p_pc p = Opening pieces -> p_tmp p = None -> find (w_fs w) The_db = Some n -> n < length (inodes (w_fs w)) ->
  let w' := happens St init decompress shown k w [Step i; Kill i] in
  data (get (w_fs w') n) = [] /\ at_path (w_fs w') = File [].
Proof. exact write_empties. Qed.
Print Assumptions C86_write_refuted.
Example C86_write_case :
  let l := [Open; Start_writer [signed 10]] in
  let w := runs (Some (signed 3)) l in
  w_readers w = [0] /\ data (get (w_fs w) 0) = signed 3 /\ map p_pc (w_procs w) = [Opening [signed 10]] /\
  data (get (w_fs (runs (Some (signed 3)) (l ++ [Step 0; Kill 0]))) 0) = [] /\
  at_path (w_fs (runs (Some (signed 3)) (l ++ on 0 4))) = File (signed 10).
Proof.
  cbn zeta. split; [vm_compute; reflexivity|]. split; [vm_compute; reflexivity|]. split; [vm_compute; reflexivity|].
  split; vm_compute; reflexivity.
Qed.
