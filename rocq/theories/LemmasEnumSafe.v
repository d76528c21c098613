(** Enumerating the networks of any file with few nodes *)
From Coq Require Import NArith ZArith List Bool Arith Lia ZifyBool ZifyNat ZifyN.
From Verif Require Import Base LemmasBase ModelAddress LemmasAddress ModelCountryCode ModelNetwork LemmasNetwork ModelNetworkList
  ModelObjects ModelFile ModelDatabase SpecNetwork LemmasSpecNetwork LemmasFile LemmasOpen LemmasSafe ModelEnum SpecEnum LemmasEnumAs LemmasEnum LemmasEnumDb.
Import ListNotations.
Open Scope N_scope.

Lemma match_defined e x : exists b, match_network e x = Ok b.
Proof.
  unfold match_network. destruct (_ && _); [eauto|].
  assert (C : forall l, exists b, country_list_contains_code l (Some (get_country_code x)) = Ok b).
  { intros l. unfold country_list_contains_code, country_new. destruct (negb _); eauto. }
  destruct (en_countries e) as [l|]; [|destruct (en_asns e) as [l|]].
  - destruct (Nat.eqb _ _); cbn [bind]; [destruct (match en_asns e with Some _ => _ | None => _ end); [eauto|]; destruct (_ && _); eauto|].
    destruct (C l) as [[|] ->]; cbn [bind]; eauto.
    destruct (match en_asns e with Some _ => _ | None => _ end); [eauto|]. destruct (_ && _); eauto.
  - cbn [bind]. destruct (_ && _); [eauto|]. destruct (_ && _); eauto.
  - destruct (_ =? _); eauto.
Qed.

Section Small.
Variable beyond : nat -> option N.
Variables (f : list N) (d : db).
Hypothesis Small : flen f < 2 ^ 63.
Hypothesis Open : db_open f = Ok d.

Lemma network_cases a p i : wf a -> exists n c, fetch_network d a p i = Ok (n, c) /\ (c = 0%Z -> exists x, n = Some x /\ (octets f -> net_wf x)).
Proof.
  intros Wa. destruct (opened_long f d Small Open) as (L & S0 & Ef). unfold fetch_network. destruct (_ <=? _).
  { exists None, 1%Z. split; auto. discriminate. }
  destruct (object _ _ _ _) as [off|] eqn:E; [|exists None, 1%Z; split; auto; discriminate].
  destruct (object_safe d L S0 _ NETWORK_SIZE _ _ ltac:(unfold NETWORK_SIZE; lia) E) as [b Hb]. rewrite Hb. cbn [bind].
  pose proof (from_database_cases d L S0 a p b Wa) as X. pose proof (from_database_wf a p b) as Y.
  destruct (network_from_database a p b) as [n c]. exists n, c. split; auto. intros ->. destruct n as [n|]; [|discriminate X].
  exists n. split; auto. intros O. apply Y; auto. rewrite Ef in Hb. exact (rd_octets _ _ _ _ Hb O).
Qed.

Definition fits (e : enum) : Prop :=
  marks_ok d e /\ wf (en_addr e) /\ (length (en_nodes e) <= 1 + 2 * length (en_visited e))%nat /\
  Forall (fun s => fst (fst s) < snd (d_tree d) /\ (snd s <= length (en_visited e))%nat) (en_nodes e).

Lemma push_fits e off i depth : (length (en_nodes e) <= 254)%nat -> exists e' r, push_node d e off i depth = Ok (e', r) /\
  en_visited e' = en_visited e /\ en_addr e' = en_addr e /\ (length (en_nodes e') <= S (length (en_nodes e)))%nat /\
  (forall k, (depth <= k)%nat -> Forall (fun s => fst (fst s) < snd (d_tree d) /\ (snd s <= k)%nat) (en_nodes e) ->
    Forall (fun s => fst (fst s) < snd (d_tree d) /\ (snd s <= k)%nat) (en_nodes e')).
Proof.
  intros L. unfold push_node, MAX_STACK_DEPTH. destruct (off =? 0); [exists e, 0%Z; auto 8|].
  replace (N.to_nat 256 <=? length (en_nodes e))%nat with false by lia.
  destruct (N.leb_spec (snd (d_tree d)) off); [exists e, 1%Z; auto 8|].
  replace (N.to_nat 256 <=? S (length (en_nodes e)))%nat with false by lia.
  do 2 eexists. split; [reflexivity|]. cbn [with_search en_visited en_addr en_nodes length]. auto 10.
Qed.

Hypothesis Few : snd (d_tree d) <= 127.

Definition stops_ok (v : event) : Prop := match v with
  | Found x => octets f -> net_wf x
  | Stop x r => r = 0%Z -> x = None
  | Quiet => True
  end.

Ltac fin := first [exact I | intros ?; exfalso; subst; match goal with H : negb _ = true |- _ => cbn in H; discriminate H end | intros ?; congruence].

Lemma step0_fits e : fits e -> exists e' v, step0 beyond d e = Ok (e', v) /\ fits e' /\
  stops_ok v.
Proof.
  intros (M & W & L & F). unfold step0. destruct (en_nodes e) as [|[[off i] depth] rest] eqn:E.
  { exists e, (Stop None 0). split; auto. split; [|exact (fun _ => eq_refl)]. unfold fits. rewrite E. auto. }
  inversion F as [|? ? [F1 F2] F']; subst. cbn [fst snd] in F1, F2. replace (snd (d_tree d) <=? off) with false by lia.
  destruct (existsb (N.eqb off) (en_visited e)) eqn:X.
  { do 2 eexists. split; [reflexivity|]. split; [|exact I]. split; [exact M|]. cbn [with_search en_addr en_nodes en_visited length] in *. split; auto.
    split; [lia|auto]. }
  assert (V : (S (length (en_visited e)) <= N.to_nat (snd (d_tree d)))%nat /\ marks_ok d (with_search e (en_addr e) [] (off :: en_visited e))).
  { assert (M0 : marks_ok d (with_search e (en_addr e) [] (off :: en_visited e))).
    { destruct M as [Nd Fv]. split; cbn [with_search en_visited]; constructor; auto. intros I.
      assert (existsb (N.eqb off) (en_visited e) = true) by (apply existsb_exists; exists off; split; [auto|apply N.eqb_refl]). congruence. }
    split; auto. apply (marks_bound d _ M0). }
  destruct V as [V M0]. unfold set_bit. replace (depth - 1 <? 128)%nat with true by lia. cbn [bind].
  set (a1 := addr_set_bit _ _ _). assert (W1 : wf a1) by now apply addr_set_bit_wf.
  set (e0 := with_search e a1 _ _).
  assert (N0 : en_nodes e0 = (off, i, depth) :: rest) by reflexivity.
  assert (V0 : en_visited e0 = off :: en_visited e) by reflexivity.
  assert (A0 : en_addr e0 = a1) by reflexivity.
  assert (Ex : forall m, Forall (fun s : N * N * nat => fst (fst s) < snd (d_tree d) /\ (snd s <= length (en_visited e))%nat) m ->
    Forall (fun s => fst (fst s) < snd (d_tree d) /\ (snd s <= S (length (en_visited e)))%nat) m).
  { intros m. apply Forall_impl. intros s [? ?]. split; auto. }
  apply Ex in F. clearbody e0. cbn [length] in L.
  assert (Done : forall e1 v, en_visited e1 = en_visited e0 -> en_addr e1 = en_addr e0 -> (length (en_nodes e1) <= 2 + length (en_nodes e0))%nat ->
    Forall (fun s => fst (fst s) < snd (d_tree d) /\ (snd s <= S (length (en_visited e)))%nat) (en_nodes e1) ->
    stops_ok v ->
    exists e' v', Ok (e1, v) = Ok (e', v') /\ fits e' /\ stops_ok v').
  { intros e1 v H1 H2 H3 H4 H5. exists e1, v. split; auto. split; auto. split; [|split; [|split]].
    - unfold marks_ok. rewrite H1, V0. exact M0.
    - rewrite H2, A0. exact W1.
    - rewrite H1, V0. rewrite N0 in H3. cbn [length] in *. lia.
    - rewrite H1, V0. exact H4. }
  destruct (fetch_node_safe d) with (i := off) as [n ->]; try apply (opened_long f d Small Open). cbn [bind].
  destruct n as [n|]; [|apply Done; auto; [lia|now rewrite N0|discriminate]].
  destruct (push_fits e0 (snd (fst n)) 1 (S depth)) as (e1 & r1 & -> & P1 & P2 & P3 & P4); [rewrite N0; cbn [length]; lia|]. cbn [bind].
  specialize (P4 (S (length (en_visited e))) ltac:(lia) ltac:(now rewrite N0)).
  destruct (negb (r1 =? 0)%Z) eqn:Z1; [apply Done; [congruence|congruence|lia|assumption|fin]|].
  destruct (push_fits e1 (fst (fst n)) 0 (S depth)) as (e2 & r2 & -> & Q1 & Q2 & Q3 & Q4); [rewrite N0 in P3; cbn [length] in P3; lia|]. cbn [bind].
  specialize (Q4 (S (length (en_visited e))) ltac:(lia) P4).
  destruct (negb (r2 =? 0)%Z) eqn:Z2; [apply Done; [congruence|congruence|lia|assumption|fin]|].
  destruct (is_leaf n); [|apply Done; [congruence|congruence|lia|assumption|fin]].
  destruct (network_cases (en_addr e2) (N.of_nat depth) (snd n)) as (x & c & -> & Hx); [rewrite Q2, P2, A0; exact W1|]. cbn [bind].
  destruct (Z.eqb_spec c 0) as [Hc|Hc]; cbn [negb]; [|apply Done; [congruence|congruence|lia|assumption|fin]].
  destruct (Hx Hc) as (y & -> & Wy). apply Done; [congruence|congruence|lia|assumption|exact Wy].
Qed.

Lemma search_fits (filter : bool) fuel : forall e, fits e -> (measure d e <= fuel)%nat -> exists e' x r,
  search beyond d filter e fuel = Ok (e', x, r) /\ fits e' /\ (octets f -> r = 0%Z -> match x with Some y => net_wf y | None => True end).
Proof.
  induction fuel as [|fuel IH]; intros e H L.
  - cbn [search]. unfold measure in L. destruct (en_nodes e) as [|[[? ?] ?] ?] eqn:En; [|cbn [length] in L; lia].
    exists e, None, 0%Z. split; auto.
  - rewrite search_step. destruct (step0_fits e H) as (e1 & v & E & H1 & Hv). rewrite E. cbn [bind].
    apply step0_shape in E as (_ & Me & _); [|apply H]. destruct v.
    + apply IH; auto. lia.
    + assert (exists b, (if filter then match_network e1 x else Ok true) = Ok b) as [b ->] by (destruct filter; [apply match_defined|eauto]).
      cbn [bind]. destruct b.
      * exists e1, (Some x), 0%Z. split; auto.
      * apply IH; auto. destruct Me. lia.
    + exists e1, x, r. split; auto. split; auto. intros _ ->.
      rewrite (Hv eq_refl). exact I.
Qed.

Hypothesis Some_node : 0 < snd (d_tree d).

Lemma configured_fits m fl l : fits (configured m fl l).
Proof.
  destruct (configured_marks d m fl l) as (K1 & _ & _). destruct (configured_state m fl l) as (_ & _ & _ & _ & Ea & En & Ev & _).
  cbv zeta in *. split; auto. rewrite Ea, En, Ev. split; [split; [reflexivity|repeat constructor]|]. cbn [length]. split; [lia|]. constructor; [|constructor].
  cbn. lia.
Qed.

Lemma returns_fits fuel old : forall L e e', returns (next_network beyond d fuel old) e L e' -> fits e -> nsize (en_stack e) = 0%nat ->
  en_mode e = Networks -> en_flatten e = false -> (measure d e <= fuel)%nat ->
  fits e' /\ nsize (en_stack e') = 0%nat /\ en_mode e' = Networks /\ en_flatten e' = false /\ (measure d e' <= fuel)%nat /\
  (octets f -> Forall net_wf L).
Proof.
  induction L as [|x L IH]; intros e e' R H St M Fl Me; inversion R; subst; [split; auto 10|].
  match goal with H : _ = Ok (_, Some x, _) |- _ => rename H into H1 end. match goal with H : returns _ _ L e' |- _ => rename H into H2 end.
  unfold next_network in H1. rewrite M, Fl in H1. pose proof (next_inner_mode _ _ _ _ _ _ _ _ H1) as [M1 F1].
  unfold next_inner in H1. rewrite from_stack_empty in H1 by auto. cbn [bind] in H1.
  destruct (search_fits true fuel e H Me) as (e2 & y & r & E & He & Wy). rewrite E in H1. injection H1 as -> -> ->.
  pose proof (search_shape _ _ _ _ _ _ _ _ E (proj1 H)) as (_ & Sm & _ & X). destruct (X eq_refl ltac:(discriminate)) as [X1 _].
  destruct (IH _ _ H2) as (G1 & G2 & G3 & G4 & G5 & G6); auto; try congruence.
  - destruct Sm as (? & ? & ? & ->); exact St.
  - lia.
  - do 5 (split; auto).
Qed.

Lemma small_file fuel old l L e : (3 * N.to_nat (snd (d_tree d)) + 1 <= fuel)%nat ->
  returns (next_network beyond d fuel old) (configured Networks false l) L e ->
  (octets f -> Forall valid_network L) /\
  exists e' n r, next_network beyond d fuel old e = Ok (e', n, r).
Proof.
  intros Fu R. destruct (configured_state Networks false l) as (M & Fl & _). cbv zeta in *.
  destruct (configured_marks d Networks false l) as (_ & K2 & K3).
  destruct (returns_fits fuel old L _ e R (configured_fits _ _ _) K2 M Fl ltac:(rewrite K3; lia)) as (G1 & G2 & G3 & G4 & G5 & G6).
  split; [intros O; specialize (G6 O); revert G6; apply Forall_impl; intros x; apply valid_net_wf|].
  unfold next_network. rewrite G3, G4. unfold next_inner. rewrite from_stack_empty by auto. cbn [bind].
  destruct (search_fits true fuel e G1 G5) as (e2 & y & r & E & _). eauto.
Qed.
End Small.

(** no node at all *)
Lemma no_nodes beyond d fuel old l : snd (d_tree d) = 0 -> next_network beyond d (S fuel) old (configured Networks false l) = UB.
Proof.
  intros Z. destruct (configured_state Networks false l) as (M & Fl & _ & _ & _ & En & _ & Es & _). cbv zeta in *.
  unfold next_network. rewrite M, Fl. unfold next_inner. rewrite from_stack_empty by (rewrite Es; reflexivity). cbn [bind].
  rewrite search_step. unfold step0. rewrite En, Z. reflexivity.
Qed.
