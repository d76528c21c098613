(** Model of how the file of a database is replaced while others use it: `location update`
    (src/scripts/location.in handle_update, src/python/location/downloader.py download) and
    Writer.write (src/python/writer.c) as steps on a file system that is shared by processes.
    What is decided and checked is that of ModelDownload and ModelUpdate. Simplified: what
    Python has in its buffers counts as written (it is flushed before the file is opened again); one
    directory, the process may do in it what it likes; the machine does not lose power. *)
From Coq Require Import NArith ZArith List Bool Arith.
From Verif Require Import Base ModelDatabase ModelVerify ModelDownload ModelUpdate.
Import ListNotations.
Open Scope nat_scope.

(** Names in the directory: that of the database, and temporary ones, which are different for
    each file (O_EXCL) *)
Inductive name := The_db | Tmp (n : nat).
Definition name_eqb (a b : name) : bool :=
  match a, b with The_db, The_db => true | Tmp n, Tmp m => n =? m | _, _ => false end.
(** A file: its data, and whether everyone may read it *)
Record inode := mkInode { data : list N; everyone : bool }.
Record fs := mkFs { inodes : list inode; dir : list (name * nat) }.
Definition find (s : fs) (x : name) : option nat := option_map snd (List.find (fun e => name_eqb (fst e) x) (dir s)).
Definition unlink (s : fs) (x : name) : fs := mkFs (inodes s) (filter (fun e => negb (name_eqb (fst e) x)) (dir s)).
Definition link (s : fs) (x : name) (n : nat) : fs := mkFs (inodes s) ((x, n) :: filter (fun e => negb (name_eqb (fst e) x)) (dir s)).
Definition get (s : fs) (n : nat) : inode := nth n (inodes s) (mkInode [] false).
Definition put (s : fs) (n : nat) (i : inode) : fs := mkFs (upd (inodes s) n i) (dir s).
Definition set_data (s : fs) (n : nat) (d : list N) : fs := put s n (mkInode d (everyone (get s n))).
(** A new file, and its number *)
Definition create (s : fs) (x : nat -> name) (everyone : bool) : fs * nat :=
  let n := length (inodes s) in (link (mkFs (inodes s ++ [mkInode [] everyone]) (dir s)) (x n) n, n).
(** fopen() or open() for writing: the file that is there is emptied, or a new one made *)
Definition open_write (s : fs) : fs * nat :=
  match find s The_db with
  | Some n => (set_data s n [], n)
  | None => create s (fun _ => The_db) true
  end.
(** What is found at the path of the database *)
Definition at_path (s : fs) : installed := match find s The_db with Some n => File (data (get s n)) | None => Missing end.

(** What an update is told, and what it meets: the option --cron, the time, the answer of DNS, the mirrors,
    whether os.rename works, errno after a file could not be opened, the type of exceptions *)
Record job := mkJob { j_cron : option interval; j_now : Z; j_dns : option N; j_mirrors : list mirror; j_rename : bool; j_enoent : bool; j_value_error : bool }.

Section Replace.
  Variables (St : Type) (init : St) (decompress : St -> list N -> decompressed St).
  Variables (shown : Z -> bool) (k : verifier).

  (** Where a process is *)
  Inductive pc :=
  | Begin
  | Creating
  | Trying (pos : nat) (ms : list mirror)
  | Receiving (s : St) (chunks : list (list N)) (broken : bool) (pos : nat) (ms : list mirror)
  | Received (pos : nat) (ms : list mirror)
  | Accepted
  | Moving
  | Copying (m : nat) (rest : list N)
  | Copied
  | Removing
  | Opening (pieces : list (list N))
  | Writing (m : nat) (pieces : list (list N))
  | Ended (code : Z)
  | Crashed
  | Killed.
  (** its job, what it found at the path of the database, its temporary file *)
  Record proc := mkProc { p_job : job; p_seen : installed; p_tmp : option nat; p_pc : pc }.

  Definition timestamp (j : job) : N := match j_dns j with Some t => t | None => 0%N end.
  Definition raises (j : job) : Z := if j_value_error j then 2%Z else 1%Z.
  (** location.in:424-450 and downloader.py:119-123: the exit code, unless something is to be
      downloaded *)
  Definition decide (j : job) (d : option db) : pc :=
    if match j_cron j, d with Some c, Some d => (j_now j - delta c <=? py_created_at d)%Z | _, _ => false end then Ended 3
    else if match d, j_dns j with Some d, Some t => negb (t =? 0)%N && (Z.of_N t <=? py_created_at d)%Z | _, _ => false end then Ended 0
    else if negb (timestamp j =? 0)%N && negb (shown (Z.of_N (timestamp j))) then Ended (raises j)
    else Creating.
  (** location.in:206-221 run *)
  Definition decision (j : job) (i : installed) : pc :=
    match py_open (j_enoent j) i with
    | Crash => Crashed
    | OpenError => Ended 1
    | FileNotFound => decide j None
    | Db d => decide j (Some d)
    end.
  (** shutil copies pieces; here they are smaller than Python's *)
  Definition PIECE : nat := 64.

  Definition to (p : proc) (x : pc) : proc := mkProc (p_job p) (p_seen p) (p_tmp p) x.
  (** the end of a process that has no temporary file any more *)
  Definition over (p : proc) (code : Z) : proc := mkProc (p_job p) (p_seen p) None (Ended code).
  Definition step (s : fs) (p : proc) : fs * proc :=
    let j := p_job p in
    match p_pc p with
    | Begin =>
        let i := at_path s in
        (s, mkProc j i None (decision j i))
    (* downloader.py:125: a file that only its owner may read *)
    | Creating => let (s', n) := create s Tmp false in (s', mkProc j (p_seen p) (Some n) (Trying 0 (j_mirrors j)))
    | pc =>
        match p_tmp p with
        | None =>
            match pc with
            (* writer.c:221-244 Writer_write; loc_writer_write goes back only for the signatures *)
            | Opening pieces => let (s', m) := open_write s in (s', to p (Writing m pieces))
            | Writing m (x :: pieces) => (set_data s m (data (get s m) ++ x), to p (Writing m pieces))
            | Writing m [] => (s, to p (Ended 0))
            | _ => (s, p)
            end
        | Some n =>
            let f pos := mkFile (data (get s n)) pos in
            match pc with
            (* downloader.py:128-134, 155-165 *)
            | Trying pos [] => (s, to p Removing)
            | Trying pos (HttpError _ :: ms) => (set_data s n (content (truncate (f pos))), to p (Trying pos ms))
            | Trying pos (Unreachable :: _) => (s, to p (Ended (raises j)))
            | Trying pos (Body chunks broken :: ms) => (s, to p (Receiving init chunks broken pos ms))
            (* 136-153 *)
            | Receiving x [] broken pos ms => (s, to p (if broken then Ended (raises j) else Received pos ms))
            | Receiving x (c :: chunks) broken pos ms =>
                if (length c =? 0)%nat then (s, to p (Received pos ms))
                else match decompress x c with
                     | Out x' buf =>
                         if (length buf =? 0)%nat then (s, to p (Receiving x' chunks broken pos ms))
                         else (set_data s n (content (fwrite (f pos) buf)), to p (Receiving x' chunks broken (pos + length buf) ms))
                     | LzmaError => (s, to p (Trying pos ms))
                     | OtherError => (s, to p (Ended (raises j)))
                     end
            (* 167-174, 187-210: the file is opened by its name *)
            | Received pos ms =>
                match find s (Tmp n) with
                | None => (s, to p (Ended (raises j)))
                | Some m =>
                    match check_database shown k (timestamp j) (data (get s m)) with
                    | None => (s, to p (Ended (raises j)))
                    | Some false => (set_data s n (content (truncate (f pos))), to p (Trying pos ms))
                    | Some true => (s, to p Accepted)
                    end
                end
            (* 176-180 *)
            | Accepted => (put s n (mkInode (data (get s n)) true), to p Moving)
            (* location.in:471-474; shutil.move: os.rename; if that raises OSError the file is copied *)
            | Moving =>
                if j_rename j then (link (unlink s (Tmp n)) The_db n, over p 0)
                else let (s', m) := open_write s in (s', to p (Copying m (data (get s n))))
            | Copying m [] => (s, to p Copied)
            | Copying m rest => (set_data s m (data (get s m) ++ firstn PIECE rest), to p (Copying m (skipn PIECE rest)))
            | Copied => (unlink s (Tmp n), over p 0)
            (* downloader.py:182-185, location.in:462-465 *)
            | Removing => (unlink s (Tmp n), over p 1)
            | _ => (s, p)
            end
        end
    end.

  (** All processes, and programs that have opened the database: the file they have mapped *)
  Record world := mkWorld { w_fs : fs; w_procs : list proc; w_readers : list nat }.
  Inductive event :=
  | Start (j : job)                     (* location update *)
  | Start_writer (pieces : list (list N)) (* location-importer write, to the same path *)
  | Step (i : nat)                      (* process i goes on *)
  | Kill (i : nat)
  | Open.                               (* a program opens the database *)
  Definition idle : job := mkJob None 0 None [] true false false.
  Definition happen (w : world) (e : event) : world :=
    match e with
    | Start j => mkWorld (w_fs w) (w_procs w ++ [mkProc j Missing None Begin]) (w_readers w)
    | Start_writer pieces => mkWorld (w_fs w) (w_procs w ++ [mkProc idle Missing None (Opening pieces)]) (w_readers w)
    | Step i =>
        match nth_error (w_procs w) i with
        | Some p => let (s, p') := step (w_fs w) p in mkWorld s (upd (w_procs w) i p') (w_readers w)
        | None => w
        end
    | Kill i =>
        match nth_error (w_procs w) i with
        | Some p => match p_pc p with
                    | Ended _ | Crashed => w
                    | _ => mkWorld (w_fs w) (upd (w_procs w) i (to p Killed)) (w_readers w)
                    end
        | None => w
        end
    | Open => match find (w_fs w) The_db with Some n => mkWorld (w_fs w) (w_procs w) (w_readers w ++ [n]) | None => w end
    end.
  Definition happens (w : world) (l : list event) : world := fold_left happen l w.
  (** what the directory has in the beginning *)
  Definition first_world (i : option (list N)) : world :=
    mkWorld (match i with Some f => mkFs [mkInode f true] [(The_db, 0)] | None => mkFs [] [] end) [] [].
End Replace.
Arguments Begin {St}.
Arguments Creating {St}.
Arguments Trying {St} pos ms.
Arguments Receiving {St} s chunks broken pos ms.
Arguments Received {St} pos ms.
Arguments Accepted {St}.
Arguments Moving {St}.
Arguments Copying {St} m rest.
Arguments Copied {St}.
Arguments Removing {St}.
Arguments Opening {St} pieces.
Arguments Writing {St} m pieces.
Arguments Ended {St} code.
Arguments Crashed {St}.
Arguments Killed {St}.
Arguments mkProc {St} p_job p_seen p_tmp p_pc.
Arguments p_job {St} p.
Arguments p_seen {St} p.
Arguments p_tmp {St} p.
Arguments p_pc {St} p.
Arguments mkWorld {St} w_fs w_procs w_readers.
Arguments w_fs {St} w.
Arguments w_procs {St} w.
Arguments w_readers {St} w.
Arguments to {St} p x.
Arguments over {St} p code.
