(** C16, C17, C18, C47: the writer's networks and their clean-up. *)
From Coq Require Import NArith ZArith List Bool Arith Lia Permutation.
From Verif Require Import Base ModelAddress ModelCountryCode ModelNetwork ModelTree SpecNetwork SpecTree
  LemmasTreeProps.
Import ListNotations.
Open Scope N_scope.

(** Adding networks and changing attributes in any order: the return codes and the
    stored networks are those of the set specification. *)
Theorem C18_adding_networks : forall ctz0 held os,
  Forall wop_ok os -> Forall (fun o => match o with CleanUp => False | _ => True end) os ->
  exists t rs, wrun ctz0 held tree_new os = Ok (t, rs) /\
    rs = snd (set_run [] os) /\ Permutation (stored t) (fst (set_run [] os)).
Proof. exact history_set. Qed.
Print Assumptions C18_adding_networks.

(** Networks for the examples: an attribute triple (country code, ASN, flags). *)
Definition at_de : cc2 * N * N := ((68, 69), 64496, 0).
Definition at_fr : cc2 * N * N := ((70, 82), 64497, 4).
Definition n_10_8 := net_of_addr (ip4 10 0 0 0) 8.
Definition n_10_9 := net_of_addr (ip4 10 0 0 0) 9.
Definition n_10128_9 := net_of_addr (ip4 10 128 0 0) 9.
Definition n_10_16 := net_of_addr (ip4 10 1 0 0) 16.
Definition n_all6 := net_of_addr (ip6 0) 0.
Definition n_2001 := net_of_addr (ip6 (0x20010db8 * 2 ^ 96)) 32.

Ltac valid :=
  repeat match goal with
  | |- Forall _ _ => constructor
  | |- wop_ok _ => cbn [wop_ok]
  | |- _ /\ _ => split
  | |- valid_network _ => apply net_of_addr_valid
  | |- is_addr _ => split; [reflexivity|repeat constructor]
  | |- attributes_ok _ => cbn; split; [right; lia|split; reflexivity]
  | |- True => exact I
  | |- _ = true => reflexivity
  end.

Example C18_case :
  let os := [AddNetwork (n_10_8 at_de); AddNetwork (n_2001 at_fr); AddNetwork (n_10_8 at_fr);
             AddNetwork (n_10_9 at_fr); SetAttributes (n_10_9 at_fr) at_de] in
  Forall wop_ok os /\
  exists t, wrun 8 (fun _ => false) tree_new os = Ok (t, [0; 0; -16; 0; 0]%Z) /\
    stored t = [n_10_8 at_de; n_10_9 at_de; n_2001 at_fr].
Proof.
  cbv zeta. split; [valid|]. eexists. split; [vm_compute; reflexivity|]. vm_compute; reflexivity.
Qed.

(** Whatever was done before (including earlier clean-ups), if the clean-up
    finishes, every address finds the same attributes as before. *)
Theorem C16_cleanup_preserves_attributes : forall ctz0 held os t rs t',
  Forall wop_ok os -> wrun ctz0 held tree_new os = Ok (t, rs) -> cleanup ctz0 held t = Ok t' ->
  forall v a, v < 2 ^ 128 ->
  (exists x, most_specific (stored t) v x /\ attributes x = a) <->
  (exists x, most_specific (stored t') v x /\ attributes x = a).
Proof. exact cleanup_attributes. Qed.
Print Assumptions C16_cleanup_preserves_attributes.

(** It always finishes when the caller keeps references to the networks. *)
Theorem C16_cleanup_finishes : forall ctz0 os, Forall wop_ok os ->
  exists t rs, wrun ctz0 (fun _ => true) tree_new os = Ok (t, rs) /\
  exists t', cleanup ctz0 (fun _ => true) t = Ok t'.
Proof. exact cleanup_finishes. Qed.
Print Assumptions C16_cleanup_finishes.

(** Not only the most specific network: every network that was there lies inside one with
    the same attributes, every address in a network that is left was in one with the same
    attributes, and no network of a single address is new. *)
Theorem C16_cleanup_covers_the_same : forall ctz0 held os t rs t',
  Forall wop_ok os -> wrun ctz0 held tree_new os = Ok (t, rs) -> cleanup ctz0 held t = Ok t' ->
  (forall y, In y (stored t') -> n_prefix y = 128%nat -> In y (stored t)) /\
  (forall y, In y (stored t) -> exists z, In z (stored t') /\ attributes z = attributes y /\ forall v, member y v -> member z v) /\
  (forall z v, In z (stored t') -> member z v -> exists y, In y (stored t) /\ attributes y = attributes z /\ member y v).
Proof. exact cleanup_stored. Qed.
Print Assumptions C16_cleanup_covers_the_same.

(** Every network of the cleaned tree is made of networks that were there, of its family and with its attributes. *)
Theorem C16_cleanup_pieces : forall ctz0 held os t rs t',
  Forall wop_ok os -> wrun ctz0 held tree_new os = Ok (t, rs) -> cleanup ctz0 held t = Ok t' ->
  forall z v, In z (stored t') -> member z v ->
  exists y, In y (stored t) /\ n_family y = n_family z /\ attributes y = attributes z /\ member y v /\
    (n_prefix z <= n_prefix y)%nat /\ forall u, member y u -> member z u.
Proof. exact cleanup_pieces. Qed.
Print Assumptions C16_cleanup_pieces.

(** A duplicate is dropped and two halves are merged. *)
Example C16_case :
  let os := [AddNetwork (n_10_9 at_de); AddNetwork (n_10128_9 at_de); AddNetwork (n_10_16 at_de);
             AddNetwork (n_2001 at_fr)] in
  Forall wop_ok os /\
  exists t rs, wrun 8 (fun _ => true) tree_new os = Ok (t, rs) /\
  exists t', cleanup 8 (fun _ => true) t = Ok t' /\ length (stored t) = 4%nat /\
    stored t' = [n_10_8 at_de; n_2001 at_fr].
Proof.
  cbv zeta. split; [valid|]. eexists. eexists. split; [vm_compute; reflexivity|].
  eexists. split; [vm_compute; reflexivity|]. split; [vm_compute; reflexivity|]. vm_compute; reflexivity.
Qed.

(** Deduplication is complete, except for IPv4 networks inside an IPv6 network. *)
Theorem C17_dedup_complete_partial : forall ctz0 held os t rs t',
  Forall wop_ok os -> wrun ctz0 held tree_new os = Ok (t, rs) -> cleanup ctz0 held t = Ok t' ->
  forall x y, In x (stored t') -> closest (stored t') x y ->
  n_family x = AF_INET6 \/
  (forall z, In z (stored t) -> n_family z = AF_INET6 -> ~ (forall v, member x v -> member z v)) ->
  attributes x <> attributes y.
Proof. exact cleanup_dedup. Qed.
Print Assumptions C17_dedup_complete_partial.

(** Without the exception the claim is false: 10.1.0.0/16 inside 10.0.0.0/8 with the
    same attributes stays if ::/0 is in the database. *)
Theorem C17_dedup_complete_refuted : exists os t rs t' x y,
  Forall wop_ok os /\ wrun 8 (fun _ => true) tree_new os = Ok (t, rs) /\ cleanup 8 (fun _ => true) t = Ok t' /\
  In x (stored t') /\ closest (stored t') x y /\ n_family x = n_family y /\ attributes x = attributes y.
Proof.
  exists [AddNetwork (n_all6 at_fr); AddNetwork (n_10_8 at_de); AddNetwork (n_10_16 at_de)].
  eexists. eexists. eexists. exists (n_10_16 at_de), (n_10_8 at_de).
  split; [valid|]. split; [vm_compute; reflexivity|]. split; [vm_compute; reflexivity|].
  match goal with |- In _ (stored ?t) /\ _ =>
    assert (E : stored t = [n_all6 at_fr; n_10_8 at_de; n_10_16 at_de]) by (vm_compute; reflexivity); rewrite E; clear E end.
  split; [right; right; now left|]. split; [|split; vm_compute; reflexivity].
  split; [right; now left|]. split; [vm_compute; reflexivity|]. split.
  - split; [vm_compute; lia|]. intros v [H1 H2]. split; [eapply N.le_trans; [|exact H1]|eapply N.le_trans; [exact H2|]]; vm_compute; discriminate.
  - intros z [<-|[<-|[<-|[]]]] F En.
    + vm_compute in F. discriminate.
    + apply le_n.
    + destruct En as [En _]. exfalso. apply (Nat.lt_irrefl _ En).
Qed.
Print Assumptions C17_dedup_complete_refuted.

Example C17_case :
  let os := [AddNetwork (n_10_8 at_de); AddNetwork (n_10_9 at_fr); AddNetwork (n_10_16 at_fr);
             AddNetwork (n_10128_9 at_de)] in
  Forall wop_ok os /\
  exists t rs, wrun 8 (fun _ => true) tree_new os = Ok (t, rs) /\
  exists t', cleanup 8 (fun _ => true) t = Ok t' /\ stored t' = [n_10_8 at_de; n_10_9 at_fr].
Proof.
  cbv zeta. split; [valid|]. eexists. eexists. split; [vm_compute; reflexivity|].
  eexists. split; [vm_compute; reflexivity|]. vm_compute; reflexivity.
Qed.

(** Clean-up touches no released network if the caller keeps references to all of
    them, or if no two networks can be merged. *)
Theorem C47_cleanup_memory_safe_partial : forall ctz0 held os t rs,
  Forall wop_ok os -> wrun ctz0 held tree_new os = Ok (t, rs) ->
  (forall x, held x = true) \/
  (forall n x, In n (stored t) -> In x (stored t) -> network_merge ctz0 n x = Ok None) ->
  exists t', cleanup ctz0 held t = Ok t'.
Proof. exact cleanup_safe. Qed.
Print Assumptions C47_cleanup_memory_safe_partial.

(** Otherwise a released network is read: 10.0.0.0/9 and 10.128.0.0/9. *)
Theorem C47_cleanup_memory_safe_refuted : exists os t rs,
  Forall wop_ok os /\ wrun 8 (fun _ => false) tree_new os = Ok (t, rs) /\ cleanup 8 (fun _ => false) t = UB.
Proof.
  exists [AddNetwork (n_10_9 at_de); AddNetwork (n_10128_9 at_de)]. eexists. eexists.
  split; [valid|]. split; [vm_compute; reflexivity|]. vm_compute; reflexivity.
Qed.
Print Assumptions C47_cleanup_memory_safe_refuted.

Example C47_case :
  let os := [AddNetwork (n_10_9 at_de); AddNetwork (n_10128_9 at_fr)] in
  Forall wop_ok os /\
  exists t rs, wrun 8 (fun _ => false) tree_new os = Ok (t, rs) /\
  (forall n x, In n (stored t) -> In x (stored t) -> network_merge 8 n x = Ok None) /\
  exists t', cleanup 8 (fun _ => false) t = Ok t' /\ stored t' = stored t.
Proof.
  cbv zeta. split; [valid|]. eexists. eexists. split; [vm_compute; reflexivity|]. split.
  - match goal with |- forall n x, In n (stored ?t) -> _ =>
      assert (E : stored t = [n_10_9 at_de; n_10128_9 at_fr]) by (vm_compute; reflexivity); rewrite E; clear E end.
    intros n x [<-|[<-|[]]] [<-|[<-|[]]]; vm_compute; reflexivity.
  - eexists. split; [vm_compute; reflexivity|]. vm_compute; reflexivity.
Qed.
