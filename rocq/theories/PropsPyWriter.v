(** C80: the writer in Python *)
From Coq Require Import String.
From Coq Require Import NArith ZArith List Bool Lia.
From Verif Require Import Base ModelAddress ModelCountryCode ModelNetwork SpecNetwork ModelObjects ModelStringPool ModelText SpecText ModelFile ModelWriter ModelDatabase SpecTree SpecWriter
  ModelBindings SpecCommand LemmasBindings ModelPython SpecPython LemmasPython ModelPyWriter SpecPyWriter LemmasPyWriter.
Import ListNotations.
Open Scope N_scope.

(** A script does the same as the calls of the library that it stands for, and its
    exceptions are the ones that [effect] names. What C19 to C26 and C63 say about these
    calls holds for the script. *)
Theorem C80_script : forall ctz0 held key1 key2 l es w, Forall plain l -> py_script l = Ok (es, w) ->
  exists os, effects [] l es os /\ Forall call_ok os /\ Forall no_save os /\ program ctz0 held key1 key2 os = Ok w.
Proof. exact script. Qed.
Print Assumptions C80_script.

(** What is read in Python from the file that was written *)
Theorem C80_read : forall ctz0 held key1 key2 l es w x v w' f, Forall plain l -> py_script l = Ok (es, w) ->
  py_write ctz0 held key1 key2 true x v w = Ok (None, w', Some f) -> N.of_nat (length f) < 2 ^ 32 -> s_now x < 2 ^ 63 ->
  exists os d, effects [] l es os /\ db_open f = Ok d /\
    py_db_text get_vendor d = value (Some (last_vendor l)) /\ py_db_text get_description d = value (Some (last_description l)) /\
    py_db_text get_license d = value (Some (last_license l)) /\ py_created_at d = Z.of_N (s_now x) /\
    (forall n, added_as l n -> exists a r, In a (ases (meaning os)) /\ the_number a = n /\ py_get_as d n = value (Some r) /\
       as_number r = n /\ as_name r = Some (or_empty (the_name a))) /\
    (forall n, n < 2 ^ 31 -> ~ added_as l n -> py_get_as d n = value None) /\
    (exists x', program ctz0 held key1 key2 os = Ok w /\ write_to ctz0 held key1 key2 w x' = Ok (0%Z, w', f) /\ s_now x' = s_now x).
Proof. exact read_back. Qed.
Print Assumptions C80_read.

Definition case_script : list pystmt :=
  [PyVendor (PyStr (txt "first")); PyVendor (PyStr (txt "IPFire")); PyLicense (PyStr (txt "CC"));
   PyAddAs (PyInt 64496); PyNameAs 0 (PyStr (txt "Example")); PyAddAs (PyInt (2 ^ 31)); PyAddAs (PyInt 1); PyAddCountry (PyStr (txt "DE")); PyAddCountry (PyStr (txt "XX"));
   PyNameCountry 2 (PyStr (txt "Germany")); PyContinent 2 (PyStr (txt "EU")); PyContinent 2 (PyStr (txt "E"));
   PyAddNet (PyStr (txt "10.0.0.0/8")) [SetAsn (PyInt 64496); SetCode (PyStr (txt "DE")); SetFlag (PyInt 1)];
   PyAddNet (PyStr (txt "10.1.2.3/8")) []; PyAddNet (PyStr (txt "2001:db8::/32")) [SetCode (PyStr (txt "FR")); SetAsn (PyInt 0); SetFlag (PyInt 2)];
   PyAddNet (PyStr (txt "foo")) []].
Definition case_save : save := mkSave 1700000000 0 (txt "LOCDBXX") (fun _ => (0, 0, (0, 0))) (0, 0).
Ltac is_plain := split; [apply utf8_iff; reflexivity|cbn; intuition discriminate].
Ltac is_code := do 2 eexists; split; [reflexivity|]; repeat split; vm_compute; discriminate.
Definition case_raised : list (option wexc) := [None; None; None; None; None; Some (Exc OverflowError); None; None; Some (Exc SystemError); None; None; Some (Exc ValueError); None;
  Some IndexError; Some (Exc ValueError); Some (Exc SystemError)].
Definition same_exc : forall a b : option wexc, {a = b} + {a <> b}.
Proof. repeat decide equality. Defined.
Definition same_text (r : py (option cstr)) (s : cstr) : bool := match r with Ok (inl (Some t)) => if list_eq_dec N.eq_dec t s then true else false | _ => false end.
Lemma same_text_ok : forall r s, same_text r s = true -> r = value (Some s).
Proof. intros r s H. unfold same_text in H. destruct r as [[[t|]|]| | |]; try discriminate. destruct (list_eq_dec N.eq_dec t s) as [-> |]; [reflexivity|discriminate]. Qed.
Lemma case_holds :
  match py_script case_script with
  | Ok (es, w) =>
      match py_write 8 (fun _ => true) None None true case_save (PyInt 1) w with
      | Ok (None, w', Some f) =>
          match db_open f with
          | Ok d => (if list_eq_dec same_exc es case_raised then true else false) && (N.of_nat (length f) <? 2 ^ 32) && same_text (py_db_text get_vendor d) (txt "IPFire") &&
                    same_text (py_db_text get_description d) [] && match py_get_as d 2 with Ok (inl None) => true | _ => false end
          | _ => false
          end
      | _ => false
      end
  | _ => false
  end = true ->
  exists w w' f d, py_script case_script = Ok (case_raised, w) /\
    py_write 8 (fun _ => true) None None true case_save (PyInt 1) w = Ok (None, w', Some f) /\ N.of_nat (length f) < 2 ^ 32 /\ s_now case_save < 2 ^ 63 /\ db_open f = Ok d /\
    py_db_text get_vendor d = value (Some (txt "IPFire")) /\ py_db_text get_description d = value (Some []) /\
    py_get_as d 2 = value None /\ added_as case_script 64496 /\ ~ added_as case_script 2.
Proof.
  destruct (py_script case_script) as [[es w]| | |]; try discriminate. destruct (py_write 8 (fun _ => true) None None true case_save (PyInt 1) w) as [[[[e|] w'] [f|]]| | |] eqn:W; try discriminate.
  destruct (db_open f) as [d| | |] eqn:D; try discriminate. rewrite !andb_true_iff. intros [[[[A B] C] E] F]. exists w, w', f, d.
  destruct (list_eq_dec same_exc es case_raised) as [-> |]; [|discriminate]. split; [reflexivity|]. split; [exact W|]. split; [now apply N.ltb_lt|]. split; [vm_compute; reflexivity|].
  split; [exact D|]. split; [now apply same_text_ok|]. split; [now apply same_text_ok|]. split; [destruct (py_get_as d 2) as [[[r|]|]| | |]; try discriminate; reflexivity|].
  split; [split; [lia|cbn; tauto]|]. intros [_ H]. cbn in H. intuition discriminate.
Qed.
Example C80_case : Forall plain case_script /\
  exists w w' f d, py_script case_script = Ok (case_raised, w) /\
    py_write 8 (fun _ => true) None None true case_save (PyInt 1) w = Ok (None, w', Some f) /\ N.of_nat (length f) < 2 ^ 32 /\ s_now case_save < 2 ^ 63 /\ db_open f = Ok d /\
    py_db_text get_vendor d = value (Some (txt "IPFire")) /\ py_db_text get_description d = value (Some []) /\
    py_get_as d 2 = value None /\ added_as case_script 64496 /\ ~ added_as case_script 2.
Proof.
  split.
  - repeat (apply Forall_cons || apply Forall_nil); cbn [plain]; try is_plain; try lia; (split; [is_plain|]); repeat (apply Forall_cons || apply Forall_nil).
    + left. cbn [set_ok]. lia.
    + left. cbn [set_ok]. is_code.
    + left. cbn [set_ok]. lia.
    + left. cbn [set_ok]. is_code.
    + right. cbn [set_bad]. intros z E. injection E as <-. lia.
    + left. cbn [set_ok]. lia.
  - apply case_holds. vm_compute. reflexivity.
Qed.

(** A file that cannot be opened is an OSError, and so is a version that does not exist.
    The writer is unchanged. *)
Theorem C80_failed : forall ctz0 held key1 key2 x w z, (- 2 ^ 31 <= z < 2 ^ 31)%Z ->
  py_write ctz0 held key1 key2 false x (PyInt z) w = Ok (Some (Exc OSError), w, None) /\
  (z <> 0%Z -> z <> 1%Z -> exists f, py_write ctz0 held key1 key2 true x (PyInt z) w = Ok (Some (Exc OSError), w, f)).
Proof. exact write_fails. Qed.
Print Assumptions C80_failed.
Example C80_failed_case : (- 2 ^ 31 <= 2 < 2 ^ 31)%Z /\ 2%Z <> 0%Z /\ 2%Z <> 1%Z.
Proof. lia. Qed.
(** It is false that a write that fails leaves the file alone: it is empty then. *)
Theorem C80_failed_refuted : forall ctz0 held key1 key2 x w z, (- 2 ^ 31 <= z < 2 ^ 31)%Z -> z <> 0%Z -> z <> 1%Z ->
  py_write ctz0 held key1 key2 true x (PyInt z) w = Ok (Some (Exc OSError), w, Some []).
Proof. exact write_failed. Qed.
Print Assumptions C80_failed_refuted.

(** It is false that a number that is refused or negative is not added, and that every number
    can be added: -1 is AS4294967295, which cannot be given. *)
Theorem C80_number_refuted : exists w, py_script [PyAddAs (PyInt (-1))] = Ok ([None], w) /\ map as_number (ol_elems (w_as w)) = [4294967295] /\
  exists w2, py_script [PyAddAs (PyInt 4294967295)] = Ok ([Some (Exc OverflowError)], w2) /\ ol_elems (w_as w2) = [].
Proof. eexists. split; [vm_compute; reflexivity|]. split; [vm_compute; reflexivity|]. eexists. split; vm_compute; reflexivity. Qed.
Print Assumptions C80_number_refuted.
(** It is false that a value that is not a text raises an exception: the message is made
    from a pointer that is NULL. *)
Theorem C80_type_refuted : forall w v, (forall s, v <> PyStr s) -> py_step w (PyVendor v) = UB /\ py_step w (PyDescription v) = UB /\ py_step w (PyLicense v) = UB.
Proof. exact text_needed. Qed.
Print Assumptions C80_type_refuted.
(** It is false that a network or a code that is not valid is a ValueError: the error is 1 and
    no exception is set. *)
Theorem C80_invalid_refuted : forall w s, plain_text s ->
  (network_new_from_string (Some s) = Err 1 -> forall sets, py_step w (PyAddNet (PyStr s) sets) = Ok (Some (Exc SystemError), w)) /\
  (~ letters s -> py_step w (PyAddCountry (PyStr s)) = Ok (Some (Exc SystemError), w)).
Proof. exact invalid_step. Qed.
Print Assumptions C80_invalid_refuted.
Example C80_invalid_case : plain_text (txt "XX") /\ ~ letters (txt "XX") /\ plain_text (txt "10.0.0.0/33") /\ network_new_from_string (Some (txt "10.0.0.0/33")) = Err 1.
Proof. split; [is_plain|]. split; [intros (a & b & E & A & B & X); injection E as <- <-; lia|]. split; [is_plain|vm_compute; reflexivity]. Qed.
(** It is false that the attributes of a network are assigned together: what came before
    an assignment that fails stays. *)
Theorem C80_partly_refuted : exists w n, py_script [PyAddNet (PyStr (txt "2001:db8::/32")) [SetCode (PyStr (txt "FR")); SetAsn (PyInt 0); SetFlag (PyInt 2)]] = Ok ([Some (Exc ValueError)], w) /\
  stored (w_tree w) = [n] /\ n_cc n = (70, 82) /\ n_asn n = 0 /\ n_flags n = 0.
Proof. do 2 eexists. split; [vm_compute; reflexivity|]. split; [vm_compute; reflexivity|]. vm_compute. auto. Qed.
Print Assumptions C80_partly_refuted.
