(** The theorems of C87, for the calls on a new writer. *)
From Coq Require Import NArith ZArith List Bool Arith Lia.
From Verif Require Import Base ModelCountryCode ModelStringPool ModelNetwork ModelFile ModelWriter ModelDatabase ModelWriteIo SpecWriter SpecWriteIo LemmasStringPool LemmasWriter LemmasWrite LemmasWriteIo.
Import ListNotations.
Open Scope N_scope.

Lemma complete ctz0 held key1 key2 os w x q fuel : Forall call_ok os ->
  program ctz0 held key1 key2 os = Ok w ->
  takes_all q -> seeks_all q -> (N.to_nat 4096 <= fuel)%nat ->
  write_to_io ctz0 held key1 key2 q fuel w x = write_to ctz0 held key1 key2 w x.
Proof.
  intros C P T K F. destruct (program_inv ctz0 held key1 key2 os w C P) as [ss W].
  apply works_same; [exact T|exact K|exact F|exact (i_sig1 _ _ _ W)|exact (i_sig2 _ _ _ W)].
Qed.
Lemma seek ctz0 held key1 key2 w x q fuel w' f :
  write_to_io ctz0 held key1 key2 q fuel w x = Ok (0%Z, w', f) ->
  seeks q 0 = true /\ seeks q 1 = true /\ seeks q 2 = true /\ (takes_all q -> seeks q 3 = true).
Proof. apply seek_reported. Qed.
Lemma unreported ctz0 held w x w' f q fuel :
  write_to ctz0 held None None w x = Ok (0%Z, w', f) -> seeks_all q ->
  write_to_io ctz0 held None None q fuel w x = Fuel \/
  exists w1 f1, write_to_io ctz0 held None None q fuel w x = Ok (0%Z, w1, f1).
Proof. intros H K. exact (never_reported _ _ _ _ _ _ _ _ _ _ _ _ _ K H eq_refl). Qed.
Lemma never_ends ctz0 held key1 key2 w x q fuel :
  s_version x = 1 -> seeks_all q -> full_disk q ->
  write_to_io ctz0 held key1 key2 q fuel w x = Fuel.
Proof. intros V. unfold write_to_io. rewrite V. apply endless. Qed.

Lemma keeps ctz0 held key1 key2 w x q fuel r w' f :
  write_to_io ctz0 held key1 key2 q fuel w x = Ok (r, w', f) -> (length (s_old x) <= length f)%nat.
Proof. apply longer. Qed.

Lemma pool ctz0 held w x q fuel s t w1 h s1 :
  fwrite q (mkStream [] (s_old x) 0) (MAGIC ++ [VERSION_1]) = (s, t) ->
  write_sections_io ctz0 held (s_hole x) (s_block0 x) q fuel w (s_now x) (fseek_cur s (N.to_nat HEADER_SIZE)) (N.of_nat t + HEADER_SIZE) = Ok (w1, h, s1) ->
  h_pool_offset h + h_pool_length h = N.of_nat (length (s_back s1)) /\ h_pool_offset h + h_pool_length h <= N.of_nat (length (s_file s1)).
Proof. intros W. apply pool_within. exact (start_counted _ _ _ W). Qed.

(** What is read from a database that was written to [q], for cases *)
Definition check (q : io) (os : list call) (x : save) (ok : db -> bool) : bool :=
  match program 0 (fun _ => true) None None os with
  | Ok w => match write_to_io 0 (fun _ => true) None None q (N.to_nat 4096) w x with
            | Ok (r, _, f) => (r =? 0)%Z && match db_open f with Ok d => ok d | _ => false end
            | _ => false
            end
  | _ => false
  end.
Lemma written_badly q os x ok : check q os x ok = true ->
  exists w w' f d, program 0 (fun _ => true) None None os = Ok w /\
    write_to_io 0 (fun _ => true) None None q (N.to_nat 4096) w x = Ok (0%Z, w', f) /\ db_open f = Ok d /\ ok d = true.
Proof.
  unfold check. destruct (program _ _ _ _ _) as [w| | |]; try discriminate.
  destruct (write_to_io _ _ _ _ _ _ _ _) as [[[r w'] f]| | |] eqn:W; try discriminate.
  destruct (r =? 0)%Z eqn:R; cbn [andb]; [|discriminate]. apply Z.eqb_eq in R. subst r.
  destruct (db_open f) as [d| | |] eqn:D; try discriminate. intros H. exists w, w', f, d. auto.
Qed.
Lemma err1 {A} (r : outcome A) (b : bool) : match r with Err 1 => b | _ => false end = true -> r = Err 1 /\ b = true.
Proof. destruct r as [a|n| |]; try discriminate. destruct n as [|[p|p|]|p]; try discriminate. intros H. now split. Qed.
Lemma ok_string (r : outcome (option cstr)) s : match r with Ok (Some t) => cstr_eqb t s | _ => false end = true -> r = Ok (Some s).
Proof. destruct r as [[t|]| | |]; try discriminate. intros H. apply cstr_eqb_eq in H. now subst. Qed.
