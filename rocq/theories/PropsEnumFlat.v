(** Theorems about flattened enumeration (C34) *)
From Coq Require Import NArith ZArith List Bool Arith Lia.
From Verif Require Import Base ModelAddress ModelCountryCode ModelNetwork ModelNetworkList ModelTree ModelStringPool ModelObjects
  ModelFile ModelWriter ModelDatabase ModelEnum SpecNetwork SpecNetworkList SpecTree SpecObjects SpecWriter SpecEnum LemmasTreeProps
  LemmasDbProps PropsTree PropsDatabase PropsLookup PropsEnum LemmasEnumFlatDb.
Import ListNotations.
Open Scope N_scope.
Local Opaque cleanup.

(** ** C34 *)
(** Partial: sets of networks are excluded on which the search or exclude fails, see
    C31_enumerate_refuted, C33_stack_refuted and C34_flat_refuted. The networks are the ones
    left after the clean-up of the tree; for the ones added see C34_meaning_partial. *)
Theorem C34_stored_partial : forall ctz0 held key1 key2 os w x w' f d,
  Forall call_ok os ->
  program ctz0 held key1 key2 os = Ok w ->
  write_to ctz0 held key1 key2 w x = Ok (0%Z, w', f) ->
  N.of_nat (length f) < 2 ^ 32 -> s_now x < 2 ^ 64 -> db_open f = Ok d ->
  forall beyond old l, Forall setting_ok l ->
  (forall y, In y (stored (w_tree w')) -> ~ straddles y) ->
  (forall y, In y (stored (w_tree w')) -> n_prefix y = 128%nat -> ~ crowded (stored (w_tree w')) (num (n_first y))) ->
  (forall y z, In y (stored (w_tree w')) -> In z (stored (w_tree w')) -> strictly_inside y z -> ~ crosses y z) ->
  exists L f0, (forall fuel, (f0 <= fuel)%nat -> enumerates (next_network beyond d fuel old) (configured Networks true l) L) /\
    Forall valid_network L /\ one_after_another L /\
    forall v fam at_, v < 2 ^ 128 ->
    (exists z, In z L /\ member z v /\ n_family z = fam /\ attrs z = at_) <->
    (exists y, most_specific (stored (w_tree w')) v y /\ wanted l (as_read y) /\ n_family y = fam /\ attrs (as_read y) = at_).
Proof. exact flat_networks. Qed.
Print Assumptions C34_stored_partial.

(** Partial: for sets of networks as in [ordinary]. *)
Theorem C34_meaning_partial : forall ctz0 held key1 key2 os w x w' f d,
  Forall call_ok os ->
  program ctz0 held key1 key2 os = Ok w ->
  write_to ctz0 held key1 key2 w x = Ok (0%Z, w', f) ->
  N.of_nat (length f) < 2 ^ 32 -> s_now x < 2 ^ 64 -> db_open f = Ok d -> Forall no_save os ->
  forall beyond old l, Forall setting_ok l -> ordinary (given os) ->
  exists L f0, (forall fuel, (f0 <= fuel)%nat -> enumerates (next_network beyond d fuel old) (configured Networks true l) L) /\
    Forall valid_network L /\ one_after_another L /\
    forall v fam at_, v < 2 ^ 128 ->
    (exists z, In z L /\ member z v /\ n_family z = fam /\ attrs z = at_) <->
    (exists y, most_specific (given os) v y /\ wanted l (as_read y) /\ n_family y = fam /\ attrs (as_read y) = at_).
Proof. exact flat_meaning. Qed.
Print Assumptions C34_meaning_partial.

(** 10.0.0.0/8 with 10.1.0.0/16 in it, 192.168.0.1/32 and 2001:db8::/32; the hypothesis about [given] is in C31_ordinary_case. *)
Example C34_case : Forall call_ok calls1 /\ Forall no_save calls1 /\ Forall setting_ok de_only /\
  exists w w' f d, program 8 (fun _ => true) None None calls1 = Ok w /\
    write_to 8 (fun _ => true) None None w save0 = Ok (0%Z, w', f) /\
    N.of_nat (length f) < 2 ^ 32 /\ s_now save0 < 2 ^ 64 /\ db_open f = Ok d /\
    (same_nets (run (next_network (fun _ => None) d 2000 None) (configured Networks true []) 20)
       [(num (ip4 10 0 0 0), 112%nat, 64496); (num (ip4 10 1 0 0), 112%nat, 64497); (num (ip4 10 2 0 0), 111%nat, 64496);
        (num (ip4 10 4 0 0), 110%nat, 64496); (num (ip4 10 8 0 0), 109%nat, 64496); (num (ip4 10 16 0 0), 108%nat, 64496);
        (num (ip4 10 32 0 0), 107%nat, 64496); (num (ip4 10 64 0 0), 106%nat, 64496); (num (ip4 10 128 0 0), 105%nat, 64496);
        (num (ip4 192 168 0 1), 128%nat, 64497); (num [32;1;13;184;0;0;0;0;0;0;0;0;0;0;0;0], 32%nat, 64497)] &&
     same_nets (run (next_network (fun _ => None) d 2000 None) (configured Networks true de_only) 20)
       [(num (ip4 10 0 0 0), 112%nat, 64496); (num (ip4 10 2 0 0), 111%nat, 64496); (num (ip4 10 4 0 0), 110%nat, 64496);
        (num (ip4 10 8 0 0), 109%nat, 64496); (num (ip4 10 16 0 0), 108%nat, 64496); (num (ip4 10 32 0 0), 107%nat, 64496);
        (num (ip4 10 64 0 0), 106%nat, 64496); (num (ip4 10 128 0 0), 105%nat, 64496)])%bool = true.
Proof. split; [calls|]. split; [repeat constructor|]. split; [repeat constructor; cbn; discriminate|]. apply a_case. vm_compute. reflexivity. Qed.

(** C34 is false: with ::/0 and 1.2.3.0/24 the first call fails. *)
Definition everything : list call := [AddNet (net_of_addr (repeat 0 16) 0 at_de); AddNet (net_of_addr (ip4 1 2 3 0) 24 at_fr)].
Theorem C34_flat_refuted : exists os x, Forall call_ok os /\ Forall no_save os /\
  exists w w' f d, program 8 (fun _ => true) None None os = Ok w /\
    write_to 8 (fun _ => true) None None w x = Ok (0%Z, w', f) /\
    N.of_nat (length f) < 2 ^ 32 /\ s_now x < 2 ^ 64 /\ db_open f = Ok d /\
    exists e n, next_network (fun _ => None) d 2000 None (configured Networks true []) = Ok (e, n, 1%Z).
Proof.
  exists everything, save0. split; [calls|]. split; [repeat constructor|].
  destruct (a_case 8 (fun _ => true) None None everything save0
    (fun d => match next_network (fun _ => None) d 2000 None (configured Networks true []) with
              | Ok (_, _, 1%Z) => true | _ => false end)) as (w & w' & f & d & H1 & H2 & H3 & H4 & H5 & H6); [vm_compute; reflexivity|].
  exists w, w', f, d. split; [exact H1|]. split; [exact H2|]. split; [exact H3|]. split; [exact H4|]. split; [exact H5|].
  destruct (next_network _ _ _ _ _) as [[[e n] r]| | |]; try discriminate H6. exists e, n. destruct r as [|[]|]; try discriminate H6. reflexivity.
Qed.
Print Assumptions C34_flat_refuted.

(** C34 is false: with ::fffd:0:0/96 and ::fffe:0:0/95 (see C31_enumerate_refuted) the first
    call drops the reference to a network at NULL. *)
Theorem C34_null_refuted : exists os x, Forall call_ok os /\ Forall no_save os /\
  exists w w' f d, program 8 (fun _ => true) None None os = Ok w /\
    write_to 8 (fun _ => true) None None w x = Ok (0%Z, w', f) /\
    N.of_nat (length f) < 2 ^ 32 /\ s_now x < 2 ^ 64 /\ db_open f = Ok d /\
    next_network (fun _ => None) d 2000 None (configured Networks true []) = UB.
Proof.
  exists mapped_like, save0. split; [calls|]. split; [repeat constructor|].
  destruct (a_case 8 (fun _ => true) None None mapped_like save0
    (fun d => match next_network (fun _ => None) d 2000 None (configured Networks true []) with
              | UB => true | _ => false end)) as (w & w' & f & d & H1 & H2 & H3 & H4 & H5 & H6); [vm_compute; reflexivity|].
  exists w, w', f, d. split; [exact H1|]. split; [exact H2|]. split; [exact H3|]. split; [exact H4|]. split; [exact H5|].
  destruct (next_network _ _ _ _ _); try discriminate H6. reflexivity.
Qed.
Print Assumptions C34_null_refuted.
