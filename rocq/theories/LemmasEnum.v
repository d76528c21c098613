(** The depth-first search of the enumerator, step by step *)
From Coq Require Import NArith ZArith List Bool Arith FinFun Lia ZifyBool ZifyNat ZifyN.
From Verif Require Import Base LemmasBase ModelAddress LemmasAddress ModelCountryCode ModelNetwork LemmasNetwork ModelNetworkList
  ModelObjects ModelFile ModelDatabase ModelEnum SpecEnum.
Import ListNotations.
Open Scope N_scope.

Inductive event := Quiet | Found (x : network) | Stop (x : option network) (r : Z).

Section Steps.
Variable beyond : nat -> option N.
Variable d : db.

(** One iteration, before the filter *)
Definition step0 (e : enum) : outcome (enum * event) :=
  match en_nodes e with
  | [] => Ok (e, Stop None 0)
  | (offset, i, depth) :: rest =>
      if snd (d_tree d) <=? offset then UB
      else if existsb (N.eqb offset) (en_visited e) then Ok (with_search e (en_addr e) rest (en_visited e), Quiet)
      else
        do a <- set_bit beyond (en_addr e) (depth - 1) i;
        let e := with_search e a (en_nodes e) (offset :: en_visited e) in
        do n <- fetch_node d offset;
        match n with
        | None => Ok (e, Stop None 1)
        | Some n =>
            do (e, r) <- push_node d e (snd (fst n)) 1 (S depth);
            if negb (r =? 0)%Z then Ok (e, Stop None r)
            else
              do (e, r) <- push_node d e (fst (fst n)) 0 (S depth);
              if negb (r =? 0)%Z then Ok (e, Stop None r)
              else if is_leaf n then
                do (x, r) <- fetch_network d (en_addr e) (N.of_nat depth) (snd n);
                if negb (r =? 0)%Z then Ok (e, Stop x r)
                else match x with None => UB | Some x => Ok (e, Found x) end
              else Ok (e, Quiet)
        end
  end.

Lemma search_step (filter : bool) e fuel : search beyond d filter e (S fuel) =
  do (e', v) <- step0 e;
  match v with
  | Quiet => search beyond d filter e' fuel
  | Stop x r => Ok (e', x, r)
  | Found x =>
      do m <- (if filter then match_network e' x else Ok true);
      if (m : bool) then Ok (e', Some x, 0%Z) else search beyond d filter e' fuel
  end.
Proof.
  cbn [search]. unfold step0. destruct (en_nodes e) as [|[[off i] depth] rest] eqn:E; [reflexivity|].
  destruct (snd (d_tree d) <=? off); [reflexivity|]. destruct (existsb _ _); [reflexivity|].
  destruct (set_bit beyond (en_addr e) (depth - 1) i) as [a| | |]; try reflexivity. cbn [bind].
  destruct (fetch_node d off) as [[n|]| | |]; try reflexivity. cbn [bind].
  destruct (push_node d _ (snd (fst n)) 1 (S depth)) as [[e1 r1]| | |]; try reflexivity. cbn [bind].
  destruct (negb (r1 =? 0)%Z); [reflexivity|].
  destruct (push_node d e1 (fst (fst n)) 0 (S depth)) as [[e2 r2]| | |]; try reflexivity. cbn [bind].
  destruct (negb (r2 =? 0)%Z); [reflexivity|]. destruct (is_leaf n); [|reflexivity].
  destruct (fetch_network d (en_addr e2) (N.of_nat depth) (snd n)) as [[x r3]| | |]; try reflexivity. cbn [bind].
  destruct (negb (r3 =? 0)%Z); [reflexivity|]. destruct x; reflexivity.
Qed.

Inductive steps : nat -> enum -> list network -> enum -> Prop :=
| steps_nil e : steps 0 e [] e
| steps_quiet n e e1 l e' : step0 e = Ok (e1, Quiet) -> steps n e1 l e' -> steps (S n) e l e'
| steps_found n e e1 x l e' : step0 e = Ok (e1, Found x) -> steps n e1 l e' -> steps (S n) e (x :: l) e'.

Lemma steps_app n e l e1 m l' e2 : steps n e l e1 -> steps m e1 l' e2 -> steps (n + m) e (l ++ l') e2.
Proof. intros H K. induction H; cbn [Nat.add app]; [exact K|eapply steps_quiet; eauto|eapply steps_found; eauto]. Qed.

(** what the search does not change *)
Definition same_but (e e' : enum) : Prop := exists a nodes visited, e' = with_search e a nodes visited.
Lemma same_but_refl e : same_but e e.
Proof. exists (en_addr e), (en_nodes e), (en_visited e). now destruct e. Qed.
Lemma same_but_with e a n v : same_but e (with_search e a n v).
Proof. now exists a, n, v. Qed.
Lemma same_but_trans e e1 e2 : same_but e e1 -> same_but e1 e2 -> same_but e e2.
Proof. intros (a & n & v & ->) (a' & n' & v' & ->). now exists a', n', v'. Qed.
Lemma same_match e e' x : same_but e e' -> match_network e' x = match_network e x.
Proof. intros (a & n & v & ->). reflexivity. Qed.
Lemma same_stack e e' : same_but e e' -> en_stack e' = en_stack e /\ en_subnets e' = en_subnets e.
Proof. intros (a & n & v & ->). auto. Qed.

Lemma push_same e off i depth e' r : push_node d e off i depth = Ok (e', r) -> same_but e e'.
Proof.
  unfold push_node. destruct (off =? 0); [intros [= <- <-]; apply same_but_refl|].
  destruct (Nat.leb _ _); [intros [= <- <-]; apply same_but_refl|].
  destruct (_ <=? _); [intros [= <- <-]; apply same_but_refl|].
  destruct (Nat.leb _ _); [discriminate|]. intros [= <- <-]. apply same_but_with.
Qed.

Lemma step0_same e e' v : step0 e = Ok (e', v) -> same_but e e'.
Proof.
  unfold step0. destruct (en_nodes e) as [|[[off i] depth] rest] eqn:E; [intros [= <- <-]; apply same_but_refl|].
  destruct (snd (d_tree d) <=? off); [discriminate|]. destruct (existsb _ _); [intros [= <- <-]; apply same_but_with|].
  destruct (set_bit beyond (en_addr e) (depth - 1) i) as [a| | |]; try discriminate. cbn [bind].
  destruct (fetch_node d off) as [[n|]| | |]; try discriminate; cbn [bind]; [|intros [= <- <-]; apply same_but_with].
  destruct (push_node d _ (snd (fst n)) 1 (S depth)) as [[e1 r1]| | |] eqn:P1; try discriminate. cbn [bind].
  apply push_same in P1. pose proof (same_but_trans _ _ _ (same_but_with _ _ _ _) P1) as S1.
  destruct (negb (r1 =? 0)%Z); [intros [= <- <-]; exact S1|].
  destruct (push_node d e1 (fst (fst n)) 0 (S depth)) as [[e2 r2]| | |] eqn:P2; try discriminate. cbn [bind].
  apply push_same in P2. pose proof (same_but_trans _ _ _ S1 P2) as S2.
  destruct (negb (r2 =? 0)%Z); [intros [= <- <-]; exact S2|]. destruct (is_leaf n); [|intros [= <- <-]; exact S2].
  destruct (fetch_network d (en_addr e2) (N.of_nat depth) (snd n)) as [[x r3]| | |]; try discriminate. cbn [bind].
  destruct (negb (r3 =? 0)%Z); [intros [= <- <-]; exact S2|]. destruct x; [|discriminate]. intros [= <- <-]. exact S2.
Qed.

Lemma steps_same n e l e' : steps n e l e' -> same_but e e'.
Proof.
  induction 1 as [|n e e1 l e' H _ IH|n e e1 x l e' H _ IH]; [apply same_but_refl| |];
  apply step0_same in H; eapply same_but_trans; eauto.
Qed.

(** ** from steps to calls *)
Lemma steps_search (filter : bool) keep n e l e' : steps n e l e' -> en_nodes e' = [] ->
  (forall x, In x l -> (if filter then match_network e x else Ok true) = Ok (keep x)) ->
  forall fuel, (n <= fuel)%nat ->
  match List.filter keep l with
  | [] => search beyond d filter e fuel = Ok (e', None, 0%Z)
  | x :: r => exists m e1 l1, search beyond d filter e fuel = Ok (e1, Some x, 0%Z) /\ steps m e1 l1 e' /\ (m <= n)%nat /\
      List.filter keep l1 = r /\ (forall y, In y l1 -> In y l)
  end.
Proof.
  induction 1 as [e|n e e1 l e' H S IH|n e e1 x l e' H S IH]; intros En K fuel L.
  - cbn [List.filter]. destruct fuel; cbn [search]; rewrite En; reflexivity.
  - destruct fuel as [|fuel]; [lia|]. rewrite search_step, H. cbn [bind].
    assert (K' : forall x, In x l -> (if filter then match_network e1 x else Ok true) = Ok (keep x)).
    { intros x Ix. rewrite <- (K x Ix). destruct filter; auto. apply same_match. eapply step0_same; eauto. }
    specialize (IH En K' fuel ltac:(lia)). destruct (List.filter keep l) as [|x r]; [exact IH|].
    destruct IH as (m & e2 & l1 & I1 & I2 & I3 & I4). exists m, e2, l1. split; [exact I1|]. split; [exact I2|]. split; [lia|exact I4].
  - destruct fuel as [|fuel]; [lia|]. rewrite search_step, H. cbn [bind].
    assert (K' : forall x, In x l -> (if filter then match_network e1 x else Ok true) = Ok (keep x)).
    { intros y Iy. rewrite <- (K y (or_intror Iy)). destruct filter; auto. apply same_match. eapply step0_same; eauto. }
    assert (Kx : (if filter then match_network e1 x else Ok true) = Ok (keep x)).
    { rewrite <- (K x (or_introl eq_refl)). destruct filter; auto. apply same_match. eapply step0_same; eauto. }
    rewrite Kx. cbn [bind List.filter]. destruct (keep x).
    + exists n, e1, l. split; [reflexivity|]. split; [exact S|]. split; [lia|]. split; [reflexivity|]. intros y Iy. now right.
    + specialize (IH En K' fuel ltac:(lia)). destruct (List.filter keep l) as [|y r]; [exact IH|].
      destruct IH as (m & e2 & l1 & I1 & I2 & I3 & I4 & I5). exists m, e2, l1. split; [exact I1|]. split; [exact I2|]. split; [lia|].
      split; [exact I4|]. intros z Iz. right. auto.
Qed.

Lemma from_stack_empty filter e : nsize (en_stack e) = 0%nat -> from_stack filter e (nsize (en_stack e)) = Ok (e, None).
Proof.
  intros H. rewrite H. cbn [from_stack]. unfold list_pop_first, list_empty. rewrite H. cbn [Nat.eqb bind].
  destruct e; reflexivity.
Qed.

Lemma steps_enumerates keep fuel e' : forall l n e, steps n e l e' -> en_nodes e' = [] -> nsize (en_stack e) = 0%nat ->
  (forall x, In x l -> match_network e x = Ok (keep x)) -> (n <= fuel)%nat ->
  enumerates (fun e => next_inner beyond d true e fuel) e (List.filter keep l).
Proof.
  intros l n e S En St K L. remember (List.filter keep l) as r eqn:E. revert n e l S St K L E.
  induction r as [|x r IH]; intros n e l S St K L E.
  - pose proof (steps_search true keep n e l e' S En K fuel L) as X. rewrite <- E in X.
    exists e, e'. split; [constructor|]. cbv beta. unfold next_inner. rewrite from_stack_empty by auto. cbn [bind]. exact X.
  - pose proof (steps_search true keep n e l e' S En K fuel L) as X. rewrite <- E in X.
    destruct X as (m & e1 & l1 & X1 & X2 & X3 & X4 & X5).
    assert (Sm : same_but e e1).
    { assert (G : forall fuel e y e1, search beyond d true e fuel = Ok (e1, y, 0%Z) -> same_but e e1).
      { clear. induction fuel as [|fuel IH]; intros e y e1 H.
        - cbn [search] in H. destruct (en_nodes e) as [|[[? ?] ?] ?]; [|discriminate]. injection H as <- <-. apply same_but_refl.
        - rewrite search_step in H. destruct (step0 e) as [[e2 v]| | |] eqn:Q; try discriminate. cbn [bind] in H.
          apply step0_same in Q. destruct v.
          + eapply same_but_trans; [exact Q|]. eauto.
          + destruct (match_network e2 x) as [[|]| | |]; try discriminate; cbn [bind] in H.
            * injection H as <- <-. exact Q.
            * eapply same_but_trans; [exact Q|]. eauto.
          + injection H as <- _ _. exact Q. }
      eapply G. exact X1. }
    destruct (IH m e1 l1 X2) as (e2 & e3 & R & Nx); auto.
    + now rewrite (proj1 (same_stack _ _ Sm)).
    + intros y Iy. rewrite (same_match _ _ y Sm). apply K. auto.
    + lia.
    + exists e2, e3. split; [|exact Nx]. econstructor; [|exact R]. cbv beta. unfold next_inner. rewrite from_stack_empty by auto.
      cbn [bind]. exact X1.
Qed.

(** ** any file: a measure that goes down *)
Definition measure (e : enum) : nat :=
  (3 * (N.to_nat (snd (d_tree d)) - length (en_visited e)) + length (en_nodes e))%nat.
Definition marks_ok (e : enum) : Prop := NoDup (en_visited e) /\ Forall (fun i => i < snd (d_tree d)) (en_visited e).

Lemma marks_bound e : marks_ok e -> (length (en_visited e) <= N.to_nat (snd (d_tree d)))%nat.
Proof.
  intros [Nd F]. assert (G : NoDup (map N.to_nat (en_visited e))).
  { apply Injective_map_NoDup; auto. intros a b. lia. }
  rewrite <- (map_length N.to_nat), <- (seq_length (N.to_nat (snd (d_tree d))) 0). apply NoDup_incl_length; auto.
  intros j I. apply in_map_iff in I as (i & <- & I). rewrite Forall_forall in F. specialize (F i I). apply in_seq. lia.
Qed.

Lemma push_shape e off i depth e' r : push_node d e off i depth = Ok (e', r) ->
  en_visited e' = en_visited e /\ en_addr e' = en_addr e /\ (length (en_nodes e') <= S (length (en_nodes e)))%nat.
Proof.
  unfold push_node. destruct (off =? 0); [intros [= <- <-]; auto|].
  destruct (Nat.leb _ _); [intros [= <- <-]; auto|]. destruct (_ <=? _); [intros [= <- <-]; auto|].
  destruct (Nat.leb _ _); [discriminate|]. intros [= <- <-]. cbn. auto.
Qed.

Lemma step0_shape e e' v : step0 e = Ok (e', v) -> marks_ok e -> marks_ok e' /\
  match v with
  | Quiet => (measure e' < measure e)%nat
  | Found _ => (measure e' < measure e)%nat /\ length (en_visited e') = S (length (en_visited e))
  | Stop _ _ => True
  end /\ (length (en_visited e) <= length (en_visited e'))%nat.
Proof.
  intros H M. unfold step0 in H.
  destruct (en_nodes e) as [|[[off i] depth] rest] eqn:E; [injection H as <- <-; auto|].
  destruct (N.leb_spec (snd (d_tree d)) off) as [|Lo]; [discriminate|].
  destruct (existsb (N.eqb off) (en_visited e)) eqn:X.
  { injection H as <- <-. split; [exact M|]. split; [|cbn; auto]. unfold measure. cbn [with_search en_visited en_nodes]. rewrite E. cbn [length]. lia. }
  destruct (set_bit beyond (en_addr e) (depth - 1) i) as [a| | |]; try discriminate. cbn [bind] in H.
  set (e0 := with_search e a _ _) in H.
  assert (M0 : marks_ok e0).
  { destruct M as [Nd F]. split; cbn [e0 with_search en_visited]; constructor; auto. intros I.
    assert (existsb (N.eqb off) (en_visited e) = true) by (apply existsb_exists; exists off; split; [auto|apply N.eqb_refl]). congruence. }
  pose proof (marks_bound e0 M0) as B0. cbn [e0 with_search en_visited length] in B0.
  assert (V0 : length (en_visited e0) = S (length (en_visited e))) by reflexivity.
  assert (N0 : length (en_nodes e0) = length (en_nodes e)) by (cbn [e0 with_search en_nodes]; now rewrite E).
  destruct (fetch_node d off) as [[n|]| | |]; try discriminate; cbn [bind] in H; [|injection H as <- <-; split; [exact M0|split; [exact I|lia]]].
  destruct (push_node d _ (snd (fst n)) 1 (S depth)) as [[e1 r1]| | |] eqn:P1; try discriminate. cbn [bind] in H.
  apply push_shape in P1 as (P1 & _ & P1').
  assert (M1 : marks_ok e1) by (unfold marks_ok; rewrite P1; exact M0).
  destruct (negb (r1 =? 0)%Z); [injection H as <- <-; split; [exact M1|split; [exact I|rewrite P1; lia]]|].
  destruct (push_node d e1 (fst (fst n)) 0 (S depth)) as [[e2 r2]| | |] eqn:P2; try discriminate. cbn [bind] in H.
  apply push_shape in P2 as (P2 & _ & P2').
  assert (M2 : marks_ok e2) by (unfold marks_ok; rewrite P2; exact M1).
  destruct (negb (r2 =? 0)%Z); [injection H as <- <-; split; [exact M2|split; [exact I|rewrite P2, P1; lia]]|].
  assert (Me : (measure e2 < measure e)%nat) by (unfold measure; rewrite P2, P1, V0; lia).
  destruct (is_leaf n).
  2:{ injection H as <- <-. split; [exact M2|]. split; [exact Me|rewrite P2, P1; lia]. }
  destruct (fetch_network d (en_addr e2) (N.of_nat depth) (snd n)) as [[x r3]| | |]; try discriminate. cbn [bind] in H.
  destruct (negb (r3 =? 0)%Z); [injection H as <- <-; split; [exact M2|split; [exact I|rewrite P2, P1; lia]]|].
  destruct x; [|discriminate]. injection H as <- <-. split; [exact M2|]. split; [|rewrite P2, P1; lia]. split; [exact Me|].
  rewrite P2, P1. exact V0.
Qed.

(** The search ends, and every network it returns costs a node. *)
Lemma fetch_node_ends i : fetch_node d i <> Fuel.
Proof. unfold fetch_node, rd. destruct (object _ _ _ _); [|discriminate]. destruct (_ <=? _); discriminate. Qed.
Lemma fetch_network_ends a p i : fetch_network d a p i <> Fuel.
Proof. unfold fetch_network, rd. destruct (_ <=? _); [discriminate|]. destruct (object _ _ _ _); [|discriminate]. destruct (_ <=? _); discriminate. Qed.
Lemma set_bit_ends a i b : set_bit beyond a i b <> Fuel.
Proof. unfold set_bit. destruct (_ <? _)%nat; [discriminate|]. destruct (beyond i); discriminate. Qed.
Lemma push_ends e off i depth : push_node d e off i depth <> Fuel.
Proof. unfold push_node. destruct (_ =? _); [discriminate|]. destruct (Nat.leb _ _); [discriminate|]. destruct (_ <=? _); [discriminate|]. destruct (Nat.leb _ _); discriminate. Qed.
Lemma match_ends e x : match_network e x <> Fuel.
Proof.
  unfold match_network. destruct (_ && _); [discriminate|].
  assert (C : forall l, country_list_contains_code l (Some (get_country_code x)) <> Fuel).
  { intros l. unfold country_list_contains_code, country_new. destruct (negb _); discriminate. }
  destruct (en_countries e) as [l|]; [|destruct (en_asns e) as [l|]].
  - destruct (Nat.eqb _ _); cbn [bind]; [destruct (match en_asns e with Some _ => _ | None => _ end); [discriminate|]; destruct (_ && _); discriminate|].
    specialize (C l). destruct (country_list_contains_code l _) as [[|]| | |]; cbn [bind]; try discriminate; try congruence.
    destruct (match en_asns e with Some _ => _ | None => _ end); [discriminate|]. destruct (_ && _); discriminate.
  - cbn [bind]. destruct (_ && _); [discriminate|]. destruct (_ && _); discriminate.
  - destruct (_ =? _); discriminate.
Qed.

Lemma step0_ends e : step0 e <> Fuel.
Proof.
  unfold step0. destruct (en_nodes e) as [|[[off i] depth] rest]; [discriminate|].
  destruct (_ <=? _); [discriminate|]. destruct (existsb _ _); [discriminate|].
  pose proof (set_bit_ends (en_addr e) (depth - 1) i). destruct (set_bit _ _ _ _); try discriminate; try congruence. cbn [bind].
  pose proof (fetch_node_ends off). destruct (fetch_node d off) as [[n|]| | |]; try discriminate; try congruence. cbn [bind].
  match goal with |- context [push_node d ?e1 ?o 1 ?k] => pose proof (push_ends e1 o 1 k); destruct (push_node d e1 o 1 k) as [[e1' r1]| | |] end; try discriminate; try congruence. cbn [bind].
  destruct (negb _); [discriminate|].
  match goal with |- context [push_node d ?e1 ?o 0 ?k] => pose proof (push_ends e1 o 0 k); destruct (push_node d e1 o 0 k) as [[e2' r2]| | |] end; try discriminate; try congruence. cbn [bind].
  destruct (negb _); [discriminate|]. destruct (is_leaf n); [|discriminate].
  match goal with |- context [fetch_network d ?a ?p ?i] => pose proof (fetch_network_ends a p i); destruct (fetch_network d a p i) as [[x r3]| | |] end; try discriminate; try congruence.
  cbn [bind]. destruct (negb _); [discriminate|]. destruct x; discriminate.
Qed.

Lemma search_ends (filter : bool) fuel : forall e, marks_ok e -> (measure e <= fuel)%nat -> search beyond d filter e fuel <> Fuel.
Proof.
  induction fuel as [|fuel IH]; intros e M L.
  - cbn [search]. unfold measure in L. destruct (en_nodes e) as [|[[? ?] ?] ?]; [discriminate|cbn [length] in L; lia].
  - rewrite search_step. pose proof (step0_ends e). destruct (step0 e) as [[e1 v]| | |] eqn:Q; try discriminate; try congruence. cbn [bind].
    apply step0_shape in Q as (M1 & Q & _); auto. destruct v; try discriminate.
    + apply IH; auto. lia.
    + destruct Q as [Q _].
      assert (X : (if filter then match_network e1 x else Ok true) <> Fuel) by (destruct filter; [apply match_ends|discriminate]).
      destruct (if filter then match_network e1 x else Ok true) as [[|]| | |]; cbn [bind]; try discriminate; try congruence.
      apply IH; auto. lia.
Qed.

Lemma search_shape (filter : bool) fuel : forall e e' x r, search beyond d filter e fuel = Ok (e', x, r) -> marks_ok e ->
  marks_ok e' /\ same_but e e' /\ (length (en_visited e) <= length (en_visited e'))%nat /\
  (r = 0%Z -> x <> None -> (measure e' < measure e)%nat /\ (length (en_visited e) < length (en_visited e'))%nat).
Proof.
  induction fuel as [|fuel IH]; intros e e' x r H M.
  - cbn [search] in H. destruct (en_nodes e) as [|[[? ?] ?] ?]; [|discriminate]. injection H as <- <- <-.
    split; [exact M|]. split; [apply same_but_refl|]. split; [lia|]. congruence.
  - rewrite search_step in H. destruct (step0 e) as [[e1 v]| | |] eqn:Q; try discriminate. cbn [bind] in H.
    pose proof (step0_same _ _ _ Q) as Sm. pose proof Q as Q0. apply step0_shape in Q as (M1 & Q & V); auto. destruct v.
    + apply IH in H as (H1 & H2 & H3 & H4); auto. split; auto. split; [eapply same_but_trans; eauto|]. split; [lia|].
      intros R X. destruct (H4 R X). lia.
    + destruct Q as [Q QV]. destruct (if filter then match_network e1 x0 else Ok true) as [[|]| | |]; cbn [bind] in H; try discriminate.
      * injection H as <- <- <-. split; auto. split; auto. split; [lia|]. lia.
      * apply IH in H as (H1 & H2 & H3 & H4); auto. split; auto. split; [eapply same_but_trans; eauto|]. split; [lia|].
        intros R X. destruct (H4 R X). lia.
    + injection H as <- <- <-. split; auto. split; auto. split; [lia|]. intros R X. exfalso.
      (* a stop with 0 has no network *)
      clear -Q0 R X. unfold step0 in Q0. destruct (en_nodes e) as [|[[off i] depth] rest]; [injection Q0 as <- <- <-; congruence|].
      destruct (_ <=? _); [discriminate|]. destruct (existsb _ _); [discriminate|].
      destruct (set_bit _ _ _ _); try discriminate. cbn [bind] in Q0.
      destruct (fetch_node d off) as [[n|]| | |]; try discriminate; cbn [bind] in Q0; [|injection Q0 as _ _ Q; lia].
      destruct (push_node d _ (snd (fst n)) 1 (S depth)) as [[e2 r1]| | |]; try discriminate. cbn [bind] in Q0.
      destruct (negb (r1 =? 0)%Z) eqn:N1; [injection Q0 as _ _ Q; lia|].
      destruct (push_node d e2 (fst (fst n)) 0 (S depth)) as [[e3 r2]| | |]; try discriminate. cbn [bind] in Q0.
      destruct (negb (r2 =? 0)%Z) eqn:N2; [injection Q0 as _ _ Q; lia|]. destruct (is_leaf n); [|discriminate].
      destruct (fetch_network d (en_addr e3) (N.of_nat depth) (snd n)) as [[y r3]| | |]; try discriminate. cbn [bind] in Q0.
      destruct (negb (r3 =? 0)%Z) eqn:N3; [injection Q0 as _ _ Q; lia|]. destruct y; discriminate.
Qed.

(** Calls on an enumerator whose list is empty *)
Lemma returns_any fuel : forall l e e', returns (fun e => next_inner beyond d true e fuel) e l e' ->
  marks_ok e -> nsize (en_stack e) = 0%nat ->
  marks_ok e' /\ nsize (en_stack e') = 0%nat /\ (length l + length (en_visited e) <= length (en_visited e'))%nat /\ (measure e' <= measure e)%nat.
Proof.
  induction l as [|x l IH]; intros e e' R M St; inversion R; subst; [cbn [length]; auto|].
  match goal with H : _ = Ok (_, Some x, _) |- _ => rename H into H1 end. match goal with H : returns _ _ l e' |- _ => rename H into H2 end.
  unfold next_inner in H1. rewrite from_stack_empty in H1 by auto. cbn [bind] in H1.
  apply search_shape in H1 as (M1 & Sm & _ & V); auto. destruct (V eq_refl ltac:(discriminate)) as [V1 V2].
  apply IH in H2 as (H3 & H4 & H5 & H6); auto.
  - split; auto. split; auto. cbn [length]. lia.
  - now rewrite (proj1 (same_stack _ _ Sm)).
Qed.

Lemma enumeration_ends fuel l e e' : marks_ok e -> nsize (en_stack e) = 0%nat -> (measure e <= fuel)%nat ->
  returns (fun e => next_inner beyond d true e fuel) e l e' ->
  (length l <= N.to_nat (snd (d_tree d)) - length (en_visited e))%nat /\ next_inner beyond d true e' fuel <> Fuel.
Proof.
  intros M St L R. apply returns_any in R as (M' & St' & V & Me); auto. pose proof (marks_bound e' M'). split; [lia|].
  unfold next_inner. rewrite from_stack_empty by auto. cbn [bind]. apply search_ends; auto. lia.
Qed.
End Steps.
