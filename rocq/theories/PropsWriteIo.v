(** Writing a database to a file that fails (C87).

    Hypotheses as in PropsDatabase: [os] are the calls on a new writer, [w] the writer
    after them, [x] the file and the time. [q] is how the file answers. *)
From Coq Require Import NArith ZArith List Bool Arith Lia.
From Verif Require Import Base ModelAddress ModelCountryCode ModelNetwork ModelTree ModelStringPool ModelObjects
  ModelFile ModelWriter ModelDatabase ModelWriteIo SpecNetwork SpecWriter SpecWriteIo LemmasTreeProps LemmasDbProps LemmasWriteIoProps.
Import ListNotations.
Open Scope N_scope.

(** If every call works, the result and the file are those of all other theorems about
    written databases (C19, C23 and so on), for every old content of the file, and also when
    signing fails. *)
Theorem C87_complete : forall ctz0 held key1 key2 os w x q fuel,
  Forall call_ok os ->
  program ctz0 held key1 key2 os = Ok w ->
  takes_all q -> seeks_all q -> (N.to_nat 4096 <= fuel)%nat ->
  write_to_io ctz0 held key1 key2 q fuel w x = write_to ctz0 held key1 key2 w x.
Proof. exact complete. Qed.
Print Assumptions C87_complete.

(** A failing fseek is reported; but for the last one, if the header was not written whole. *)
Theorem C87_seek_partial : forall ctz0 held key1 key2 w x q fuel w' f,
  write_to_io ctz0 held key1 key2 q fuel w x = Ok (0%Z, w', f) ->
  seeks q 0 = true /\ seeks q 1 = true /\ seeks q 2 = true /\ (takes_all q -> seeks q 3 = true).
Proof. exact seek. Qed.
Print Assumptions C87_seek_partial.

(** A failing fwrite is never reported: whatever the calls of fwrite take, the writer returns 0 or
    does not return. *)
Theorem C87_unreported_refuted : forall ctz0 held w x w' f q fuel,
  write_to ctz0 held None None w x = Ok (0%Z, w', f) -> seeks_all q ->
  write_to_io ctz0 held None None q fuel w x = Fuel \/
  exists w1 f1, write_to_io ctz0 held None None q fuel w x = Ok (0%Z, w1, f1).
Proof. exact unreported. Qed.
Print Assumptions C87_unreported_refuted.

(** On a disk that is full once the magic was written it does not return: align_page_boundary tries for
    ever to write the same octet. *)
Theorem C87_endless_refuted : forall ctz0 held key1 key2 w x q fuel,
  s_version x = 1 -> seeks_all q -> full_disk q ->
  write_to_io ctz0 held key1 key2 q fuel w x = Fuel.
Proof. exact never_ends. Qed.
Print Assumptions C87_endless_refuted.

(** Whatever fails, and whatever is returned: the file is not shorter than before, the octets of a longer old
    file stay behind those that were written. *)
Theorem C87_keeps : forall ctz0 held key1 key2 w x q fuel r w' f,
  write_to_io ctz0 held key1 key2 q fuel w x = Ok (r, w', f) -> (length (s_old x) <= length f)%nat.
Proof. exact keeps. Qed.
Print Assumptions C87_keeps.

(** The string pool that the header names ends where the writer has stopped, within the file, whatever fwrite took of it or
    before it: the offset that the writer counts is always the position in the file. *)
Theorem C87_pool : forall ctz0 held w x q fuel s t w1 h s1,
  fwrite q (mkStream [] (s_old x) 0) (MAGIC ++ [VERSION_1]) = (s, t) ->
  write_sections_io ctz0 held (s_hole x) (s_block0 x) q fuel w (s_now x) (fseek_cur s (N.to_nat HEADER_SIZE)) (N.of_nat t + HEADER_SIZE) = Ok (w1, h, s1) ->
  h_pool_offset h + h_pool_length h = N.of_nat (length (s_back s1)) /\ h_pool_offset h + h_pool_length h <= N.of_nat (length (s_file s1)).
Proof. exact pool. Qed.
Print Assumptions C87_pool.

(** Cases: three ASes, a country and a network *)
Definition str (s : list nat) : option cstr := Some (map N.of_nat s).
Definition save0 : save := mkSave 1700000000 1 [] (fun _ => (7, 7, (7, 7))) (81, 81).
Definition calls0 : list call :=
  [SetVendor (str [73; 80]%nat); AddAs 64500; AddAs 100; NameAs 0 (str [65; 66]%nat); AddAs 300;
   AddCountry (str [65; 84]%nat);
   AddNet (net_of_addr [0;0;0;0;0;0;0;0;0;0;255;255;10;0;0;0] 8 ((68, 69), 100, 0))].
Definition works0 : io := mkIo (fun _ n => n) (fun _ => true).
Definition full0 : io := mkIo (fun i n => match i with O => n | _ => 0%nat end) (fun _ => true).
Lemma calls0_ok : Forall call_ok calls0.
Proof. calls. Qed.

(** C87_complete, C87_seek_partial and C87_unreported_refuted: a file that works *)
Example C87_case : Forall call_ok calls0 /\ takes_all works0 /\ seeks_all works0 /\
  exists w w' f d, program 0 (fun _ => true) None None calls0 = Ok w /\
    write_to 0 (fun _ => true) None None w save0 = Ok (0%Z, w', f) /\
    write_to_io 0 (fun _ => true) None None works0 (N.to_nat 4096) w save0 = Ok (0%Z, w', f) /\
    db_open f = Ok d /\ get_vendor d = Ok (str [73; 80]%nat).
Proof.
  split; [exact calls0_ok|]. split; [intros i n; apply Nat.le_refl|]. split; [intros i; reflexivity|].
  assert (C : match program 0 (fun _ => true) None None calls0 with
              | Ok w => match write_to 0 (fun _ => true) None None w save0 with
                        | Ok (0%Z, w', f) => match db_open f with
                                             | Ok d => match get_vendor d with Ok (Some s) => cstr_eqb s [73; 80] | _ => false end
                                             | _ => false
                                             end
                        | _ => false
                        end
              | _ => false
              end = true) by (vm_compute; reflexivity).
  destruct (program 0 (fun _ => true) None None calls0) as [w| | |] eqn:P; try discriminate.
  destruct (write_to 0 (fun _ => true) None None w save0) as [[[[|z|z] w'] f]| | |] eqn:W; try discriminate.
  destruct (db_open f) as [d| | |] eqn:O; try discriminate.
  exists w, w', f, d. split; [reflexivity|]. split; [exact W|]. split.
  - rewrite <- W. apply (C87_complete 0 _ None None calls0 w save0 works0 (N.to_nat 4096) calls0_ok P); [intros i n; apply Nat.le_refl|intros i; reflexivity|apply Nat.le_refl].
  - split; [exact O|]. exact (ok_string _ _ C).
Qed.
(** C87_endless_refuted: the disk is full *)
Example C87_full_case : s_version save0 = 1 /\ seeks_all full0 /\ full_disk full0 /\
  exists w, program 0 (fun _ => true) None None calls0 = Ok w /\ forall fuel, write_to_io 0 (fun _ => true) None None full0 fuel w save0 = Fuel.
Proof.
  assert (K : seeks_all full0) by (intros i; reflexivity).
  assert (D : full_disk full0) by (intros [|i] n H; [lia|reflexivity]).
  split; [reflexivity|]. split; [exact K|]. split; [exact D|].
  destruct (program 0 (fun _ => true) None None calls0) as [w| | |] eqn:P.
  - exists w. split; [reflexivity|]. intros fuel. now apply C87_endless_refuted.
  - exfalso. revert P. vm_compute. discriminate.
  - exfalso. revert P. vm_compute. discriminate.
  - exfalso. revert P. vm_compute. discriminate.
Qed.
