(** C85: objects of Python and Lua and the objects of the library that they stand for *)
From Coq Require Import ZArith List Bool Arith.
From Verif Require Import Base ModelRef SpecRef ModelPyObj SpecPyObj LemmasPyObj.
Import ListNotations.
Open Scope nat_scope.

(** What is missing in C85_objects_partial: programs that are not careful in the sense of [types],
    for which see below. *)
Theorem C85_objects_partial : forall l ts, few_references l -> typed [] l = Some ts ->
  exists st, py_run imported l = Ok st /\ map (option_map o_kind) (st_objs st) = ts /\ sound st.
Proof. exact program_ok. Qed.
Print Assumptions C85_objects_partial.
(** After the end of the program everything has been freed, and once. *)
Theorem C85_end_partial : forall l ts, few_references (l ++ [Delete 0]) -> typed [] l = Some ts -> (forall t, In t ts -> t = None) ->
  exists st st', py_run imported l = Ok st /\ unload st = Ok st' /\ forall p c, nth_error (rs_heap (st_c st')) p = Some c -> frees c = 1.
Proof. exact program_end. Qed.
Print Assumptions C85_end_partial.
(** Streams that are left open, and references to None that are dropped without having
    been taken: exactly one for each call. *)
Theorem C85_accounts : forall l st, py_run imported l = Ok st -> st_none st = (- nones l)%Z /\ st_streams st = streams l.
Proof. exact (fun l st E => run_accounts l imported st E). Qed.
Print Assumptions C85_accounts.

(** ** Findings *)
(** An object that was never initialised *)
Theorem C85_bare_refuted : exists k, py_run imported [Bare k] <> UB /\ py_run imported [Bare k; Use 0] = UB.
Proof. exists Enumerator. split; vm_compute; congruence. Qed.
Print Assumptions C85_bare_refuted.
(** o.__init__() a second time: the first object stays for ever. *)
Theorem C85_again_refuted : exists l, leaks l /\ l = [Create Database true; Again 0; Delete 0].
Proof. eexists. split; [|reflexivity]. apply (lost_leaks _ 1). vm_compute. reflexivity. Qed.
Print Assumptions C85_again_refuted.
(** search_networks with an invalid country code: the enumerator, and with it the database and
    its mapped file, stay for ever, although database and program have ended. *)
Theorem C85_search_refuted : exists l, leaks l /\ l = [Create Database true; Search 0 (Some [true]) None In_codes; Delete 0].
Proof. eexists. split; [|reflexivity]. apply (lost_leaks _ 1). vm_compute. reflexivity. Qed.
Print Assumptions C85_search_refuted.
(** add_network with a network that was added before: the second one stays for ever. *)
Theorem C85_busy_refuted : exists l, leaks l /\ l = [Create_writer 0 0; Add 0 Network true; Add_busy 0; Delete 1; Delete 0].
Proof. eexists. split; [|reflexivity]. apply (lost_leaks _ 7). vm_compute. reflexivity. Qed.
Print Assumptions C85_busy_refuted.
(** Lua: a finaliser can be called as a method. *)
Theorem C85_gc_refuted : exists l, typed [] l <> None /\ py_run imported (l ++ [Gc 0]) <> UB /\ py_run imported (l ++ [Gc 0; Use 0]) = UB.
Proof. exists [Create Database true]. repeat split; vm_compute; congruence. Qed.
Print Assumptions C85_gc_refuted.
(** Writer(None, None): two references to None are dropped that were not taken. *)
Theorem C85_none_refuted : exists l st, typed [] l <> None /\ py_run imported l = Ok st /\ (st_none st < 0)%Z.
Proof. exists [Create_writer 2 0]. eexists. split; [vm_compute; congruence|]. split; [vm_compute; reflexivity|vm_compute; reflexivity]. Qed.
Print Assumptions C85_none_refuted.
(** Database.verify: a stream that is never closed, for each call *)
Theorem C85_streams_refuted : forall k, exists l st, typed [] l <> None /\ py_run imported l = Ok st /\ st_streams st = k.
Proof. exact (fun k => verify_streams k). Qed.
Print Assumptions C85_streams_refuted.

(** ** Cases *)
(** a database that is closed before its networks and its enumerator *)
Definition program85 : list stmt :=
  [Create Database true; Create Network false; Result 0 Network; Result 0 Country; Iterate 0; Result 3 As; Search 0 (Some [true; false; true]) (Some [true]) Fine;
   Verify 0; Delete 0; Result 5 Network; Delete 5; Delete 3; Create_writer 1 2; Add 7 Network true; Add 7 Country false; Add 7 As true; Delete 7; Use 8;
   Create Network true; Exclude 8 11 3; Use 13; Made As].
Example C85_case : option_map (map (option_map krank)) (typed [] program85) =
    Some [None; Some 1; Some 1; None; Some 1; None; Some 1; None; Some 1; Some 1; Some 1; Some 1; Some 1; Some 1; Some 1; Some 1] /\
  Z.ltb (Z.of_nat (S (efforts program85))) INT_MAX = true /\
  match py_run imported program85 with
  | Ok st => (map frees (rs_heap (st_c st)), map refs (rs_heap (st_c st)), st_none st, st_streams st)
  | _ => ([], [], 0%Z, 0)
  end =
  ([0; 1; 1; 0; 0; 1; 1; 0; 1; 1; 1; 1; 1; 1; 1; 1; 0; 1; 1; 1; 1; 1; 0; 0; 0; 0; 1; 0; 0; 0; 0],
   [13; 0; 0; 1; 1; 0; 0; 1; 0; 0; 0; 0; 0; 0; 0; 0; 1; 0; 0; 0; 0; 0; 1; 1; 1; 1; 0; 1; 1; 1; 1]%Z, (-1)%Z, 3).
Proof. split; [|split]; vm_compute; reflexivity. Qed.
Example C85_end_case : let l := program85 ++ map Delete [1; 2; 4; 6; 8; 9; 10; 11; 12; 13; 14; 15] in
  option_map (forallb (fun t => match t with None => true | _ => false end)) (typed [] l) = Some true /\
  Z.ltb (Z.of_nat (S (efforts (l ++ [Delete 0])))) INT_MAX = true /\
  match py_run imported l with Ok st => match unload st with Ok st' => map frees (rs_heap (st_c st')) | _ => [] end | _ => [] end = repeat 1 31.
Proof. split; [|split]; vm_compute; reflexivity. Qed.
