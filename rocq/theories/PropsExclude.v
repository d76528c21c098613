(** C07, C08, C15: exclusion and summarising. *)
From Coq Require Import NArith ZArith List Bool Arith Lia.
From Verif Require Import Base ModelAddress ModelNetwork ModelNetworkList SpecNetwork SpecNetworkList
  LemmasExcludeProps LemmasNetworkProps LemmasSpecNetwork LemmasNetwork LemmasNetworkList.
Import ListNotations.
Open Scope N_scope.

(** C07: the property holds for all pairs except those that cross ::/79 or
    ::fffe:0:0/95. *)
Theorem C07_exclude_is_difference_partial : forall n m,
  valid_network n -> valid_network m -> strictly_inside n m -> ~ crosses n m ->
  exists L l, network_exclude n m = Ok L /\ contents L l /\
    exactly n l (fun v => member n v /\ ~ member m v).
Proof. exact exclude_difference. Qed.
Print Assumptions C07_exclude_is_difference_partial.

(** For those pairs the call fails. *)
Theorem C07_exclude_exceptions : forall n m,
  valid_network n -> valid_network m -> strictly_inside n m -> crosses n m -> network_exclude n m = Err 1.
Proof. exact exclude_crossing. Qed.
Print Assumptions C07_exclude_exceptions.

(** Outside the hypothesis (nothing to exclude, or everything excluded) the
    result is always the empty list. *)
Theorem C07_exclude_outside_is_empty : forall n m,
  valid_network n -> valid_network m -> ~ strictly_inside n m ->
  exists L, network_exclude n m = Ok L /\ contents L [].
Proof. exact exclude_outside. Qed.
Print Assumptions C07_exclude_outside_is_empty.

(** ::/79 minus ::/96 cannot be computed. *)
Theorem C07_exclude_refuted : exists n m,
  network_new (ip6 0) 79 = Ok n /\ network_new (ip6 0) 96 = Ok m /\
  num (n_first n) <= num (n_first m) /\ num (n_last m) < num (n_last n) /\ network_exclude n m = Err 1.
Proof. give (network_new (ip6 0) 79). give (network_new (ip6 0) 96). now vm_compute. Qed.
Print Assumptions C07_exclude_refuted.

(** 10.0.0.0/8 minus 10.128.0.0/10 *)
Example C07_case : exists n m a b,
  network_new (ip4 10 0 0 0) 8 = Ok n /\ network_new (ip4 10 128 0 0) 10 = Ok m /\
  network_new (ip4 10 0 0 0) 9 = Ok a /\ network_new (ip4 10 192 0 0) 10 = Ok b /\
  num (n_first n) <= num (n_first m) /\ num (n_last m) < num (n_last n) /\
  exists L, network_exclude n m = Ok L /\ contents L [a; b].
Proof.
  give (network_new (ip4 10 0 0 0) 8). give (network_new (ip4 10 128 0 0) 10).
  give (network_new (ip4 10 0 0 0) 9). give (network_new (ip4 10 192 0 0) 10).
  do 4 (split; [now vm_compute|]). split; [now vm_compute|]. split; [now vm_compute|].
  match goal with |- exists L, ?t = _ /\ _ => give t end. split; now vm_compute.
Qed.

(** C08: [f] bounds the number of worklist iterations; from some number on the
    result is the same, so the loop ends. *)
Theorem C08_exclude_list_is_difference_partial : forall n ex lex,
  valid_network n -> Forall valid_network lex -> ascending lex -> contents ex lex ->
  (forall e, In e lex -> strictly_inside n e -> ~ crosses n e) ->
  (exists e, In e lex /\ strictly_inside n e) \/ (exists e, In e lex /\ forall v, member n v -> member e v) ->
  exists f0, forall f, (f0 <= f)%nat ->
  exists L l, network_exclude_list n ex f = Ok L /\ contents L l /\
    exactly n l (fun v => member n v /\ ~ covered lex v).
Proof. exact exclude_list_difference. Qed.
Print Assumptions C08_exclude_list_is_difference_partial.

(** Without a strict subnet in the list the result is empty. *)
Theorem C08_exclude_list_no_subnet : forall n ex lex,
  valid_network n -> Forall valid_network lex -> ascending lex -> contents ex lex ->
  (forall e, In e lex -> ~ strictly_inside n e) ->
  forall f, exists L, network_exclude_list n ex f = Ok L /\ contents L [].
Proof. exact exclude_list_nothing. Qed.
Print Assumptions C08_exclude_list_no_subnet.

(** ::/79 minus the list [::/96] fails for every bound. *)
Theorem C08_exclude_list_refuted : exists n m ex,
  network_new (ip6 0) 79 = Ok n /\ network_new (ip6 0) 96 = Ok m /\
  list_push list_new m = Ok ex /\ contents ex [m] /\ forall f, network_exclude_list n ex f = Err 1.
Proof.
  give (network_new (ip6 0) 79). give (network_new (ip6 0) 96).
  match goal with |- exists ex, _ /\ _ /\ ?t = _ /\ _ => give t end.
  split; [now vm_compute|]. split; [now vm_compute|]. split; [now vm_compute|]. split; [now vm_compute|].
  intros f. unfold network_exclude_list.
  match goal with |- context [exclude_fill ?a ?b ?c ?d ?e] =>
    replace (exclude_fill a b c d e) with (Err (A := nlist) 1) by (now vm_compute) end.
  reflexivity.
Qed.
Print Assumptions C08_exclude_list_refuted.

(** 10.0.0.0/8 minus {10.128.0.0/10, 10.192.0.0/10} is 10.0.0.0/9. *)
Example C08_case : exists n m1 m2 a,
  network_new (ip4 10 0 0 0) 8 = Ok n /\ network_new (ip4 10 128 0 0) 10 = Ok m1 /\
  network_new (ip4 10 192 0 0) 10 = Ok m2 /\ network_new (ip4 10 0 0 0) 9 = Ok a /\
  exists L, (do l <- list_push list_new m1; do l <- list_push l m2; network_exclude_list n l 20) = Ok L /\
  contents L [a].
Proof.
  give (network_new (ip4 10 0 0 0) 8). give (network_new (ip4 10 128 0 0) 10).
  give (network_new (ip4 10 192 0 0) 10). give (network_new (ip4 10 0 0 0) 9).
  do 4 (split; [now vm_compute|]).
  match goal with |- exists L, ?t = _ /\ _ => give t end. split; now vm_compute.
Qed.

(** C15: the range is always covered, by at most two networks. That nothing else
    is covered is proved only when the range is a network. *)
Theorem C15_summarize_covers_partial : forall a b L l fuel,
  is_addr a -> is_addr b -> (is_ipv4 (num a) <-> is_ipv4 (num b)) ->
  num a < num b -> contents L l -> Forall valid_network l -> ascending l ->
  exists L' l', list_summarize a b L (S (S fuel)) = Ok L' /\ contents L' l' /\
    Forall valid_network l' /\ ascending l' /\ (length l' <= length l + 2)%nat /\
    (forall v, num a <= v <= num b -> covered l' v) /\ (forall x, In x l -> In x l').
Proof. exact summarize_covering. Qed.
Print Assumptions C15_summarize_covers_partial.

Theorem C15_summarize_block_exact_partial : forall m fuel,
  valid_network m -> num (n_first m) < num (n_last m) ->
  (is_ipv4 (num (n_first m)) <-> is_ipv4 (num (n_last m))) ->
  exists L' l', list_summarize (n_first m) (n_last m) list_new (S (S fuel)) = Ok L' /\ contents L' l' /\
    Forall valid_network l' /\ ascending l' /\ (forall v, covered l' v <-> member m v).
Proof. exact summarize_block. Qed.
Print Assumptions C15_summarize_block_exact_partial.

Theorem C15_summarize_rejects : forall a b L fuel, is_addr a -> is_addr b ->
  ~ (is_ipv4 (num a) <-> is_ipv4 (num b)) \/ num b <= num a -> list_summarize a b L fuel = Err 1.
Proof. exact summarize_rejects. Qed.
Print Assumptions C15_summarize_rejects.

(** 10.0.0.1 - 10.0.0.2 is summarised as 10.0.0.0/30, which holds 10.0.0.0. *)
Theorem C15_summarize_refuted : exists n L,
  network_new (ip4 10 0 0 0) 30 = Ok n /\
  list_summarize (ip4 10 0 0 1) (ip4 10 0 0 2) list_new 2 = Ok L /\ contents L [n] /\
  covered [n] (num (ip4 10 0 0 0)) /\ num (ip4 10 0 0 0) < num (ip4 10 0 0 1).
Proof.
  give (network_new (ip4 10 0 0 0) 30). give (list_summarize (ip4 10 0 0 1) (ip4 10 0 0 2) list_new 2).
  split; [now vm_compute|]. split; [now vm_compute|]. split; [now vm_compute|]. split; [|now vm_compute].
  eexists. split; [left; reflexivity|]. split; now vm_compute.
Qed.
Print Assumptions C15_summarize_refuted.

(** The whole IPv4 space takes two networks. *)
Example C15_case : exists L n1 n2,
  list_summarize (ip4 0 0 0 0) (ip4 255 255 255 255) list_new 2 = Ok L /\
  network_new (ip4 0 0 0 0) 1 = Ok n1 /\ network_new (ip4 128 0 0 0) 1 = Ok n2 /\ contents L [n1; n2].
Proof.
  give (list_summarize (ip4 0 0 0 0) (ip4 255 255 255 255) list_new 2).
  give (network_new (ip4 0 0 0 0) 1). give (network_new (ip4 128 0 0 0) 1).
  do 3 (split; [now vm_compute|]). now vm_compute.
Qed.
