(** C07, C08, C15 in the vocabulary of the specification. *)
From Coq Require Import NArith ZArith List Bool Arith Lia ZifyBool ZifyNat ZifyN Sorting.Sorted.
From Verif Require Import Base LemmasBase ModelAddress LemmasAddress ModelCountryCode ModelNetwork SpecNetwork
  LemmasNetwork LemmasSpecNetwork ModelNetworkList SpecNetworkList LemmasNetworkList LemmasListProps LemmasExclude
  LemmasSummarize.
Import ListNotations.
Open Scope N_scope.

Lemma strictly_inside_iff n m : net_wf n -> net_wf m -> strictly_inside n m <-> strict n m.
Proof.
  intros Wn Wm. unfold strictly_inside, strict. change (member ?x ?v) with (inb x v).
  pose proof (lo_le_hi n Wn). pose proof (lo_le_hi m Wm). split.
  - intros [I (v & V1 & V2)]. assert (L : lo n <= lo m /\ hi m <= hi n).
    { pose proof (I _ (inb_lo m Wm)). pose proof (I _ (inb_hi m Wm)). unfold inb in *. lia. }
    destruct L as [L1 L2]. split; auto. split; auto. pose proof (incl_prefix n m Wn Wm L1 L2).
    destruct (Nat.eq_dec (n_prefix n) (n_prefix m)) as [E|]; [|lia]. exfalso. apply V2.
    assert (X : inb n (lo m)) by (unfold inb; lia).
    rewrite inb_iff in * by auto. rewrite E in *. congruence.
  - intros (L1 & L2 & P). split; [intros v; unfold inb; lia|].
    pose proof (hi_lo n Wn). pose proof (hi_lo m Wm). pose proof (w_prefix m Wm).
    assert (blk (n_prefix m) < blk (n_prefix n)) by (apply N.pow_lt_mono_r; lia).
    destruct (N.eq_dec (lo n) (lo m)).
    + exists (hi n). unfold inb. pose proof (blk_pos (n_prefix m)). lia.
    + exists (lo n). unfold inb. lia.
Qed.

Lemma crosses_iff n m : crosses n m <-> exclude_bad n m.
Proof.
  unfold crosses, exclude_bad. change (num (n_first m)) with (lo m).
  change 0xfffe00000000 with (65534 * 2 ^ 32). change 0xffffffffffff with (65536 * 2 ^ 32 - 1). lia.
Qed.

Lemma pairwise l : sorted l -> all_disj l -> pairwise_disjoint l.
Proof.
  intros So D i j n m Lt Hi Hj v [Vn Vm].
  assert (Ne : n <> m).
  { intros ->. assert (Li : (i < length l)%nat) by (apply nth_error_Some; congruence).
    assert (Lj : (j < length l)%nat) by (apply nth_error_Some; congruence).
    pose proof (sorted_nth l i j So (conj Lt Lj)). apply (nth_error_nth l i dnet) in Hi.
    apply (nth_error_nth l j dnet) in Hj. rewrite Hi, Hj in H. lia. }
  apply nth_error_In in Hi. apply nth_error_In in Hj. specialize (D n m Hi Hj Ne).
  change (inb n v) in Vn. change (inb m v) in Vm. unfold disj, inb in *. lia.
Qed.

Lemma attr_inherits x n : net_wf x -> attr_eq x n -> inherits x n.
Proof.
  intros W (F & A & G & C). split; [now apply valid_net_wf|]. split; auto.
  unfold attrs, get_country_code. now rewrite F, A, G, C || (rewrite A, G, C; reflexivity).
Qed.

Lemma exclude_difference n m : valid_network n -> valid_network m -> strictly_inside n m -> ~ crosses n m ->
  exists L l, network_exclude n m = Ok L /\ contents L l /\
    exactly n l (fun v => member n v /\ ~ member m v).
Proof.
  intros Vn Vm I C. apply valid_net_wf in Vn, Vm. apply strictly_inside_iff in I; auto. rewrite crosses_iff in C.
  destruct (network_exclude_spec n m Vn Vm) as [[X _]|[(_ & X & _)|(_ & _ & L & l & E & R & So & D & Cv & P)]];
    [contradiction|contradiction|].
  exists L, l. split; auto. split; [now apply repr_contents|]. split; [now apply sorted_ascending in So|].
  split; [now apply pairwise|]. split; [|exact Cv]. intros x Hx. destruct (P x Hx). now apply attr_inherits.
Qed.

Lemma exclude_crossing n m : valid_network n -> valid_network m -> strictly_inside n m -> crosses n m ->
  network_exclude n m = Err 1.
Proof.
  intros Vn Vm I C. apply valid_net_wf in Vn, Vm. apply strictly_inside_iff in I; auto. rewrite crosses_iff in C.
  destruct (network_exclude_spec n m Vn Vm) as [[X _]|[(_ & _ & X)|(_ & X & _)]]; [contradiction|auto|contradiction].
Qed.

Lemma exclude_outside n m : valid_network n -> valid_network m -> ~ strictly_inside n m ->
  exists L, network_exclude n m = Ok L /\ contents L [].
Proof.
  intros Vn Vm I. apply valid_net_wf in Vn, Vm. rewrite strictly_inside_iff in I by auto.
  destruct (network_exclude_spec n m Vn Vm) as [[_ (L & E & R)]|[(X & _)|(X & _)]]; [|contradiction|contradiction].
  exists L. split; auto. now apply repr_contents.
Qed.

Lemma exclude_list_difference n ex lex : valid_network n -> Forall valid_network lex -> ascending lex ->
  contents ex lex -> (forall e, In e lex -> strictly_inside n e -> ~ crosses n e) ->
  (exists e, In e lex /\ strictly_inside n e) \/ (exists e, In e lex /\ forall v, member n v -> member e v) ->
  exists f0, forall f, (f0 <= f)%nat ->
  exists L l, network_exclude_list n ex f = Ok L /\ contents L l /\
    exactly n l (fun v => member n v /\ ~ covered lex v).
Proof.
  intros Vn Vl Al Co Cr He. apply valid_net_wf in Vn. apply contents_repr in Co.
  assert (So : sorted lex) by (apply sorted_ascending; auto).
  destruct (exclude_list_spec ex lex Co So n Vn) as (f0 & Hf).
  { intros e Hin St. rewrite <- crosses_iff. apply Cr; auto. apply strictly_inside_iff; auto. now apply (sorted_wf lex). }
  { destruct He as [(e & Hin & X)|(e & Hin & X)].
    - left. exists e. split; auto. apply strictly_inside_iff; auto. now apply (sorted_wf lex).
    - right. exists e. split; auto. pose proof (X _ (inb_lo n Vn)). pose proof (X _ (inb_hi n Vn)).
      change (inb e (lo n)) in H. change (inb e (hi n)) in H0. unfold inb in *. lia. }
  exists f0. intros f Hle. destruct (Hf f Hle) as (L & l & E & R & Sl & D & G & Cv).
  exists L, l. split; auto. split; [now apply repr_contents|]. split; [now apply sorted_ascending in Sl|].
  split; [now apply pairwise|]. split; [|exact Cv]. intros x Hx. destruct (G x Hx). now apply attr_inherits.
Qed.

Lemma exclude_list_nothing n ex lex : valid_network n -> Forall valid_network lex -> ascending lex ->
  contents ex lex -> (forall e, In e lex -> ~ strictly_inside n e) ->
  forall f, exists L, network_exclude_list n ex f = Ok L /\ contents L [].
Proof.
  intros Vn Vl Al Co Cr f. apply valid_net_wf in Vn. apply contents_repr in Co.
  assert (So : sorted lex) by (apply sorted_ascending; auto).
  assert (Ns : forall e, In e lex -> ~ strict n e).
  { intros e Hin St. apply (Cr e Hin). apply strictly_inside_iff; auto. now apply (sorted_wf lex). }
  destruct (exclude_list_empty ex lex Co So n Vn) with (f := f) as (L & E & R); auto.
  { intros e Hin St. exfalso. now apply (Ns e). }
  exists L. split; auto. now apply repr_contents.
Qed.

Lemma summarize_covering a b L l fuel : is_addr a -> is_addr b -> (is_ipv4 (num a) <-> is_ipv4 (num b)) ->
  num a < num b -> contents L l -> Forall valid_network l -> ascending l ->
  exists L' l', list_summarize a b L (S (S fuel)) = Ok L' /\ contents L' l' /\
    Forall valid_network l' /\ ascending l' /\ (length l' <= length l + 2)%nat /\
    (forall v, num a <= v <= num b -> covered l' v) /\ (forall x, In x l -> In x l').
Proof.
  intros Ha Hb F Lt C V A. rewrite !is_ipv4_mapped in F.
  destruct (summarize_covers a b L l fuel) as (L' & l' & E & R & So & Cv & _ & In' & Ln); auto.
  { rewrite !addr_family_val by auto. unfold num, val in *. destruct (mappedb (be a)), (mappedb (be b)); auto; exfalso; intuition congruence. }
  { now apply contents_repr. } { now apply sorted_ascending. }
  apply sorted_ascending in So as [V' A'].
  exists L', l'. split; auto. split; [now apply repr_contents|]. split; auto.
Qed.

Lemma summarize_block m fuel : valid_network m -> num (n_first m) < num (n_last m) ->
  (is_ipv4 (num (n_first m)) <-> is_ipv4 (num (n_last m))) ->
  exists L' l', list_summarize (n_first m) (n_last m) list_new (S (S fuel)) = Ok L' /\ contents L' l' /\
    Forall valid_network l' /\ ascending l' /\ (forall v, covered l' v <-> member m v).
Proof.
  intros Vm Lt F. apply valid_net_wf in Vm. rewrite !is_ipv4_mapped in F.
  destruct (summarize_exact m fuel Vm Lt) as (L' & l' & E & R & So & Cv).
  { unfold lo, hi, num, val in *. destruct (mappedb (be (n_first m))), (mappedb (be (n_last m))); auto; exfalso; intuition congruence. }
  apply sorted_ascending in So as [V' A']. exists L', l'. split; auto. split; [now apply repr_contents|]. auto.
Qed.

Lemma summarize_rejects a b L fuel : is_addr a -> is_addr b ->
  ~ (is_ipv4 (num a) <-> is_ipv4 (num b)) \/ num b <= num a -> list_summarize a b L fuel = Err 1.
Proof.
  intros Ha Hb H. apply summarize_refuses; auto. destruct H as [H|H]; auto. left.
  rewrite !is_ipv4_mapped in H. rewrite !addr_family_val by auto. unfold num, val in *.
  destruct (mappedb (be a)), (mappedb (be b)); try discriminate; exfalso; apply H; tauto.
Qed.
