(** C13, C14: network lists. *)
From Coq Require Import NArith ZArith List Bool Arith.
From Verif Require Import Base ModelAddress ModelNetwork ModelNetworkList SpecNetwork SpecNetworkList
  LemmasListProps LemmasNetworkProps.
Import ListNotations.
Open Scope N_scope.

(** Every history over any number of lists gives the same replies and contents as
    the specification. *)
Theorem C13_sorted_set_history : forall os, Forall op_ok os ->
  exists b', model_run (fun _ => list_new) os = Ok (b', snd (spec_run (fun _ => []) os)) /\
  forall i, contents (b' i) (fst (spec_run (fun _ => []) os) i) /\
            ascending (fst (spec_run (fun _ => []) os) i) /\
            Forall valid_network (fst (spec_run (fun _ => []) os) i).
Proof. exact history. Qed.
Print Assumptions C13_sorted_set_history.

(** The specification functions are the set operations. *)
Theorem C13_push_is_set_insertion : forall n l x, ascending l ->
  In x (set_add n l) <-> In x l \/ (x = n /\ forall y, In y l -> key y <> key n).
Proof. exact set_add_meaning. Qed.
Print Assumptions C13_push_is_set_insertion.

Theorem C13_remove_is_set_removal : forall n l x, In x (set_remove n l) <-> In x l /\ key x <> key n.
Proof. exact set_remove_meaning. Qed.
Print Assumptions C13_remove_is_set_removal.

Theorem C13_contains_is_membership : forall n l,
  set_has n l = true <-> exists x, In x l /\ key x = key n.
Proof. exact set_has_meaning. Qed.
Print Assumptions C13_contains_is_membership.

Theorem C13_pop_extremes : forall x l, ascending (x :: l) ->
  (forall y, In y (x :: l) -> key x <= key y) /\ (forall y, In y (x :: l) -> key y <= key (last l x)).
Proof. exact ascending_extremes. Qed.
Print Assumptions C13_pop_extremes.

Theorem C14_no_access_outside_storage : forall os, Forall op_ok os ->
  model_run (fun _ => list_new) os <> UB /\ model_run (fun _ => list_new) os <> Fuel.
Proof. exact history_safe. Qed.
Print Assumptions C14_no_access_outside_storage.

(** A history that inserts out of order, twice, and merges two lists. *)
Example C13_case : exists a b c,
  network_new (ip4 10 0 0 0) 8 = Ok a /\ network_new (ip4 10 0 0 0) 9 = Ok b /\
  network_new (ip6 (0x20010db8 * 2 ^ 96)) 32 = Ok c /\
  snd (spec_run (fun _ => [])
    [Push 0 c; Push 0 a; Push 0 c; Push 1 b; Push 1 a; Merge 0 1; Size 0; Pop 0; PopFirst 0; Contains 0 b;
     Contains 0 a; DropLonger 1 8; Size 1; Remove 0 b; Pop 0]) =
  [RDone; RDone; RDone; RDone; RDone; RDone; RNat 3; RNet (Some c); RNet (Some a); RBool true;
   RBool false; RDone; RNat 1; RDone; RNet None].
Proof.
  give (network_new (ip4 10 0 0 0) 8). give (network_new (ip4 10 0 0 0) 9).
  give (network_new (ip6 (0x20010db8 * 2 ^ 96)) 32). now vm_compute.
Qed.
