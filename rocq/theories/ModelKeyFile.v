(** Model of how the bindings read the public key: Database_verify of Python (src/python/database.c:84-110), which
    gets an object with a file descriptor, and those of Lua (src/lua/database.c:208-230) and Perl
    (src/perl/Location.xs:61-89), which get a path. *)
From Coq Require Import NArith ZArith List Bool Arith.
From Verif Require Import Base ModelDatabase ModelVerify.
Import ListNotations.
Open Scope nat_scope.

(** The size of the buffer of a FILE, in the C library of GNU that of a block of the file system *)
Definition BUFSIZ : nat := N.to_nat 4096.

(** A process: the files by path, the open descriptors with path and offset (None once closed), and how
    many FILE objects nobody will close. *)
Definition path := nat.
Record process := mkProcess { p_files : path -> option (list N); p_fds : list (option (path * nat)); p_streams : nat }.
Definition set_fd (p : process) (fd : nat) (x : option (path * nat)) : process :=
  mkProcess (p_files p) (upd (p_fds p) fd x) (p_streams p).
Definition fd_at (p : process) (fd : nat) : option (path * nat) :=
  nth fd (p_fds p) None.

Section Key.
(** PEM_read_PUBKEY: what it finds in the octets from the position on, and how many of them it has read *)
Variable pem : list N -> verifier * nat.
Variable d : db.

(** Reading [n] octets through a buffer moves the offset of the descriptor by whole buffers, or to the
    end of the file; one read at least. *)
Definition buffered (offset n size : nat) : nat := Nat.max offset (Nat.min size (offset + BUFSIZ * Nat.max 1 ((n + Nat.pred BUFSIZ) / BUFSIZ))).

(** loc_database_verify with a FILE whose descriptor is at [offset]: the result and the offset afterwards *)
Definition verify_at (content : list N) (offset : nat) : outcome Z * nat :=
  let (k, n) := pem (skipn offset content) in
  (verify d k, buffered offset n (length content)).

(** What a program does. The descriptors are those of objects of Python. *)
Inductive act :=
| Open (f : path)           (* open(path) *)
| Read (fd : nat) (n : nat) (* the program reads n octets itself *)
| Seek (fd : nat)           (* os.lseek(fd, 0, os.SEEK_SET) *)
| Close (fd : nat)
| Verify (fd : nat)         (* Database.verify(object) *)
| Verify_path (f : path).   (* verify of Lua and Perl *)
(** What it sees: a boolean, an exception, or nothing *)
Inductive seen := Bool (b : bool) | Raised | Silent.

Definition as_bool (r : outcome Z) : outcome seen := do r <- r; Ok (Bool (r =? 0)%Z).

Definition perform (p : process) (a : act) : outcome (process * seen) :=
  match a with
  | Open f => match p_files p f with
              | Some _ => Ok (mkProcess (p_files p) (p_fds p ++ [Some (f, 0)]) (p_streams p), Silent)
              | None => Ok (p, Raised)
              end
  | Read fd n => match fd_at p fd with
                 | Some (f, o) => match p_files p f with
                                  | Some c => Ok (set_fd p fd (Some (f, buffered o n (length c))), Silent)
                                  | None => Ok (p, Raised)
                                  end
                 | None => Ok (p, Raised)
                 end
  | Seek fd => match fd_at p fd with
               | Some (f, _) => Ok (set_fd p fd (Some (f, 0)), Silent)
               | None => Ok (p, Raised)
               end
  | Close fd => Ok (set_fd p fd None, Silent)
  | Verify fd =>
      (* python/database.c:93-107: the FILE is not closed *)
      match fd_at p fd with
      | Some (f, o) =>
          match p_files p f with
          | Some c => let (r, o') := verify_at c o in
                      do s <- as_bool r;
                      Ok (mkProcess (p_files p) (upd (p_fds p) fd (Some (f, o'))) (S (p_streams p)), s)
          | None => Ok (p, Raised)
          end
      | None => Ok (p, Raised)
      end
  | Verify_path f =>
      (* lua/database.c:217-227, Location.xs:67-87; Perl raises an exception instead of false *)
      match p_files p f with
      | Some c => do s <- as_bool (fst (verify_at c 0)); Ok (p, s)
      | None => Ok (p, Raised)
      end
  end.
Fixpoint performs (p : process) (l : list act) : outcome (process * list seen) :=
  match l with
  | [] => Ok (p, [])
  | a :: l' => do (p, s) <- perform p a; do (p, ss) <- performs p l'; Ok (p, s :: ss)
  end.
End Key.
