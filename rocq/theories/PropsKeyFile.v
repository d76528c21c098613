(** The file of the public key, through the bindings (C89).

    [pem] is what PEM_read_PUBKEY finds in the octets it is given, and how many it reads; [d] a database that was
    opened; [p] a process with any files and descriptors, [l] anything it does before. *)
From Coq Require Import NArith ZArith List Bool Arith Lia.
From Verif Require Import Base ModelFile ModelWriter ModelDatabase ModelVerify ModelKeyFile SpecKeyFile LemmasKeyFile.
Import ListNotations.
Open Scope nat_scope.

(** Lua and Perl: whatever was done before, the result is whether the database is signed with the key in the
    file. *)
Theorem C89_path : forall pem d file, db_open file = Ok d -> forall p l f c,
  sane p -> p_files p f = Some c ->
  exists p' ss b, performs pem d p l = Ok (p', ss) /\
    perform pem d p' (Verify_path f) = Ok (p', Bool b) /\ (b = true <-> signed_by pem d c).
Proof. exact by_path. Qed.
Print Assumptions C89_path.

(** Python: so it is with a file that was just opened *)
Theorem C89_open : forall pem d file, db_open file = Ok d -> forall p l f c,
  sane p -> p_files p f = Some c ->
  exists p' ss p2 b, performs pem d p l = Ok (p', ss) /\
    performs pem d p' [Open f; Verify (length (p_fds p'))] = Ok (p2, [Silent; Bool b]) /\ (b = true <-> signed_by pem d c).
Proof. exact freshly. Qed.
Print Assumptions C89_open.

(** and in every state True is only returned for a key that is in the file, from the offset of the descriptor
    on. *)
Theorem C89_sound : forall pem d file, db_open file = Ok d -> forall p fd p',
  sane p -> perform pem d p (Verify fd) = Ok (p', Bool true) ->
  exists f o c, fd_at p fd = Some (f, o) /\ p_files p f = Some c /\ verify d (fst (pem (skipn o c))) = Ok 0%Z.
Proof. exact found. Qed.
Print Assumptions C89_sound.

(** But a file object can be used once: after it was read, or used for one verification, the next with the same object
    returns False for every database and every key, also if it is signed with it. *)
Theorem C89_again_refuted : forall pem d file, db_open file = Ok d -> forall p fd f c a,
  sane p -> fd_at p fd = Some (f, 0) -> p_files p f = Some c -> length c <= BUFSIZ -> no_key_in_nothing pem ->
  (a = Verify fd \/ exists n, a = Read fd n) ->
  exists p1 s1 p2, perform pem d p a = Ok (p1, s1) /\ perform pem d p1 (Verify fd) = Ok (p2, Bool false).
Proof. exact not_again. Qed.
Print Assumptions C89_again_refuted.

(** A program can move the descriptor back *)
Theorem C89_seek : forall pem d file, db_open file = Ok d -> forall p fd f o c,
  sane p -> fd_at p fd = Some (f, o) -> p_files p f = Some c ->
  exists p' b, performs pem d p [Seek fd; Verify fd] = Ok (p', [Silent; Bool b]) /\ (b = true <-> signed_by pem d c).
Proof. exact again. Qed.
Print Assumptions C89_seek.

(** Each verification leaves a FILE that nobody closes. *)
Theorem C89_streams_refuted : forall pem d file, db_open file = Ok d -> forall p fd f o n,
  sane p -> fd_at p fd = Some (f, o) ->
  exists p' ss, performs pem d p (repeat (Verify fd) n) = Ok (p', ss) /\ p_streams p' = p_streams p + n.
Proof. exact leaks. Qed.
Print Assumptions C89_streams_refuted.

(** ** Cases *)
Definition file1 : list N := (MAGIC ++ [1] ++ repeat 0 60 ++ [0; 1; 0; 0] ++ [9] ++ repeat 0 (N.to_nat (HEADER_SIZE - 65)) ++ [1; 2; 3])%N.
(** A key for which the signature [9] is valid, and one for which none is *)
Definition key1 : verifier := mkVerifier true 1 (fun _ => 1%Z) (fun _ m s => match s with [9%N] => 1%Z | _ => 0%Z end).
Definition key2 : verifier := mkVerifier true 1 (fun _ => 1%Z) (fun _ m s => 0%Z).
Definition no_key : verifier := mkVerifier false 1 (fun _ => 1%Z) (fun _ m s => 0%Z).
Definition pem1 (l : list N) : verifier * nat :=
  match l with 80%N :: 49%N :: _ => (key1, 2) | 80%N :: 50%N :: _ => (key2, 2) | _ => (no_key, length l) end.
(** Two keys, and a file without one *)
Definition process0 : process :=
  mkProcess (fun f => match f with 0 => Some [80; 49; 10]%N | 1 => Some [80; 50; 10]%N | 2 => Some [65]%N | _ => None end) [] 0.
Lemma process0_sane : sane process0.
Proof. intros [|fd] f o H; discriminate. Qed.

Example C89_case : exists d, db_open file1 = Ok d /\ no_key_in_nothing pem1 /\
  signed_by pem1 d [80; 49; 10]%N /\ ~ signed_by pem1 d [80; 50; 10]%N /\
  exists p, performs pem1 d process0
    [Open 0; Verify 0; Verify 0; Seek 0; Verify 0; Open 1; Verify 1; Open 0; Read 2 1; Verify 2; Close 2; Verify 2;
     Verify_path 0; Verify_path 1; Verify_path 2; Verify_path 3]
  = Ok (p, [Silent; Bool true; Bool false; Silent; Bool true; Silent; Bool false; Silent; Silent; Bool false; Silent; Raised;
            Bool true; Bool false; Bool false; Raised]) /\ p_streams p = 5.
Proof.
  destruct (db_open file1) as [d| | |] eqn:O; [|exfalso; vm_compute in O; discriminate O..].
  vm_compute in O. assert (E := f_equal (fun r => match r with Ok x => x | _ => d end) O). cbv beta iota in E. clear O. subst d.
  eexists. split; [reflexivity|]. split; [reflexivity|]. split; [vm_compute; reflexivity|]. split; [vm_compute; discriminate|].
  eexists. split; [vm_compute; reflexivity|]. reflexivity.
Qed.
