(** Specification vocabulary for the replacement of the file of the database. *)
From Coq Require Import NArith ZArith List Bool Arith.
From Verif Require Import Base ModelDatabase ModelVerify ModelDownload ModelUpdate ModelReplace SpecUpdate.
Import ListNotations.
Open Scope nat_scope.

(** Only updates that can rename files *)
Definition careful (e : event) : Prop :=
  match e with Start j => j_rename j = true | Start_writer _ => False | _ => True end.

(** The update of C64, run without others on what is installed *)
Definition outcome_of St init decompress shown k (j : job) (i : installed) : outcome update_result :=
  update St init decompress shown k (j_value_error j) true (j_enoent j) i (j_cron j) (j_now j) (j_dns j) (j_mirrors j).
(** What the download of the job gives (C48) *)
Definition downloaded St init decompress shown k (j : job) : result :=
  download St init decompress (check_database shown k (timestamp j)) (j_mirrors j).

(** A file that is a database which may be installed *)
Definition good (k : verifier) (t : option N) (f : list N) : Prop := exists d, db_open f = Ok d /\ acceptable k t d.

(** A process that does nothing any more *)
Definition stopped {St} (p : proc St) : Prop :=
  p_pc p = Crashed \/ p_pc p = Killed \/ exists c, p_pc p = Ended c.
Definition ended {St} (p : proc St) (c : Z) : Prop := p_pc p = Ended c.

(** How often process i goes on *)
Definition turns (i : nat) (l : list event) : nat :=
  length (filter (fun e => match e with Step j => Nat.eqb i j | _ => false end) l).
(** How many turns an update needs: one for each piece of data, three for each mirror, seven
    others *)
Definition effort (j : job) : nat :=
  7 + list_sum (map (fun m => 3 + match m with Body chunks _ => length chunks | _ => 0 end) (j_mirrors j)).

(** What is installed in the beginning *)
Definition initially (i : option (list N)) : installed := match i with Some f => File f | None => Missing end.
