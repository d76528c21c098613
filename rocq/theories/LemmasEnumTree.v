(** The depth-first search over the records of a tree *)
From Coq Require Import NArith ZArith List Bool Arith FinFun Lia ZifyBool ZifyNat ZifyN.
From Verif Require Import Base LemmasBase ModelAddress LemmasAddress ModelCountryCode ModelNetwork LemmasNetwork ModelNetworkList
  ModelTree LemmasPath LemmasTree LemmasMergeTree LemmasTreeProps ModelStringPool ModelObjects ModelFile ModelWriter ModelDatabase
  SpecNetwork SpecTree SpecWriter LemmasNodes LemmasLookup ModelEnum SpecEnum LemmasEnum.
Import ListNotations.
Open Scope N_scope.

(** ** following a path in the records *)
Fixpoint at_ (nodes : list node_rec) (i : N) (p : list bool) : option N :=
  match p with
  | [] => Some i
  | b :: p' =>
      match nth_error nodes (N.to_nat i) with
      | Some r => let j := if b then snd (fst r) else fst (fst r) in if j =? 0 then None else at_ nodes j p'
      | None => None
      end
  end.

Lemma at_app nodes p : forall i q, at_ nodes i (p ++ q) = match at_ nodes i p with Some j => at_ nodes j q | None => None end.
Proof.
  induction p as [|b p IH]; intros i q; cbn [app at_]; auto. destruct (nth_error nodes (N.to_nat i)); auto.
  destruct (_ =? 0); auto.
Qed.

Lemma nodup_right {A} (l m : list A) : NoDup (l ++ m) -> NoDup m.
Proof. induction l as [|x l IH]; cbn [app]; auto. intros H. apply NoDup_cons_iff in H as [_ H]. auto. Qed.

Lemma nodup_two {A B} (f : A -> list B) l : NoDup (flat_map f l) -> forall i j a b x, nth_error l i = Some a -> nth_error l j = Some b ->
  In x (f a) -> In x (f b) -> i = j.
Proof.
  induction l as [|c l IH]; intros Nd i j a b x Ei Ej Ia Ib; [now destruct i|]. cbn [flat_map] in Nd.
  pose proof (nodup_right _ _ Nd) as Nl.
  assert (X : forall k y, nth_error l k = Some y -> In x (f c) -> In x (f y) -> False).
  { intros k y E I1 I2. clear -Nd E I1 I2. apply nth_error_In in E. induction (f c) as [|z m IHm]; [destruct I1|].
    cbn [app] in Nd. apply NoDup_cons_iff in Nd as [N1 N2]. destruct I1 as [->|I1]; auto. apply N1, in_or_app. right.
    apply in_flat_map. eauto. }
  destruct i, j; cbn [nth_error] in *; auto.
  - injection Ei as <-. exfalso. eauto.
  - injection Ej as <-. exfalso. eauto.
  - f_equal. eauto.
Qed.

Lemma nodup_part {A B} (f : A -> list B) l : NoDup (flat_map f l) -> forall a, In a l -> NoDup (f a).
Proof.
  induction l as [|c l IH]; intros Nd a []; cbn [flat_map] in Nd.
  - subst. clear -Nd. induction (f a) as [|x m IH]; constructor; cbn [app] in Nd; apply NoDup_cons_iff in Nd as [N1 N2]; auto.
    intros I. apply N1, in_or_app. auto.
  - apply IH; auto. eapply nodup_right; eauto.
Qed.

Section At.
Variable nodes : list node_rec.
Hypothesis Kids : flat_map kids nodes = map N.of_nat (seq 1 (length nodes - 1)).

Lemma kids_nodup : NoDup (flat_map kids nodes).
Proof. rewrite Kids. apply Injective_map_NoDup; [intros a b; lia|apply seq_NoDup]. Qed.

Lemma at_last p b j : at_ nodes 0 (p ++ [b]) = Some j -> 0 < j /\ exists i r, at_ nodes 0 p = Some i /\
  nth_error nodes (N.to_nat i) = Some r /\ j = (if b then snd (fst r) else fst (fst r)) /\ In j (kids r).
Proof.
  rewrite at_app. destruct (at_ nodes 0 p) as [i|]; [|discriminate]. cbn [at_].
  destruct (nth_error nodes (N.to_nat i)) as [r|] eqn:E; [|discriminate]. cbv zeta.
  destruct (N.eqb_spec (if b then snd (fst r) else fst (fst r)) 0) as [|Nz]; [discriminate|]. intros [= <-].
  split; [lia|]. exists i, r. split; auto. split; auto. split; auto. unfold kids. apply in_or_app. destruct b.
  - right. replace (snd (fst r) =? 0) with false by lia. now left.
  - left. replace (fst (fst r) =? 0) with false by lia. now left.
Qed.

Lemma at_inj : forall p q j, at_ nodes 0 p = Some j -> at_ nodes 0 q = Some j -> p = q.
Proof.
  induction p as [|b p IH] using rev_ind; intros q j Hp Hq.
  - destruct q as [|c q _] using rev_ind; auto. apply at_last in Hq as [Hq _]. cbn [at_] in Hp. injection Hp as <-. lia.
  - apply at_last in Hp as (Jp & i & r & P1 & P2 & P3 & P4).
    destruct q as [|c q _] using rev_ind; [cbn [at_] in Hq; injection Hq as <-; lia|].
    apply at_last in Hq as (_ & i' & r' & Q1 & Q2 & Q3 & Q4).
    assert (N.to_nat i = N.to_nat i') by (eapply (nodup_two kids nodes kids_nodup); eauto).
    assert (i = i') by lia. subst i'. rewrite P2 in Q2. injection Q2 as <-.
    rewrite (IH q i P1 Q1). f_equal. f_equal.
    pose proof (nodup_part kids nodes kids_nodup r ltac:(eapply nth_error_In; eauto)) as Nd. unfold kids in Nd.
    rewrite Q3 in P3. rewrite Q3 in Jp. clear -Nd P3 Jp.
    destruct b, c; auto; replace (fst (fst r) =? 0) with false in Nd by lia; replace (snd (fst r) =? 0) with false in Nd by lia;
      rewrite P3 in Nd; cbn [app] in Nd; apply NoDup_cons_iff in Nd as [Nd _]; exfalso; apply Nd; now left.
Qed.

Lemma at_bound nets t p : forall q i, rep nodes nets t (N.to_nat i) -> at_ nodes 0 q = Some i -> sub t p <> Nil ->
  exists j, at_ nodes 0 (q ++ p) = Some j /\ rep nodes nets (sub t p) (N.to_nat j).
Proof.
  revert t. induction p as [|b p IH]; intros t q i R A Hs.
  - rewrite app_nil_r. eauto.
  - destruct t as [|dl n z o]; [now cbn [sub] in Hs|]. cbn [sub] in *. destruct R as (iz & io & x & E & Rz & Ro & _).
    set (c := if b then o else z) in *. set (j := if b then io else iz).
    assert (Ic : c <> Nil -> 0 < j /\ rep nodes nets c (N.to_nat j)).
    { unfold c, j. destruct b; [destruct o|destruct z]; auto; congruence. }
    assert (Nc : c <> Nil) by (intros Q; rewrite Q in Hs; now rewrite sub_nil in Hs). destruct (Ic Nc) as [I1 I2].
    destruct (IH c (q ++ [b]) j I2) as (k & K1 & K2); auto.
    + rewrite at_app, A. cbn [at_]. rewrite E. cbn [fst snd]. fold j. replace (j =? 0) with false by lia. reflexivity.
    + exists k. rewrite <- app_assoc in K1. auto.
Qed.
End At.

(** ** the record at a node *)
Lemma from_database_any x r a : net_wf x -> rec_of x r -> wf a -> pre (path x) (msb 128 (val a)) ->
  (mappedb (val a) = true -> (96 <= n_prefix x)%nat) ->
  network_from_database a (N.of_nat (n_prefix x)) r = (Some (as_read x), 0%Z).
Proof.
  intros W (R1 & R2 & R3 & R4) Wn I Hm. unfold network_from_database. rewrite v4mapped_val by auto.
  pose proof (w_prefix x W) as P. pose proof (val_bound a Wn) as V. apply inb_path in I; auto. apply inb_iff in I; auto.
  assert (Lx : lo x = first_of (val a) (n_prefix x)) by (unfold first_of; rewrite I; now rewrite <- lo_div).
  set (prefix := if mappedb (val a) then _ else _).
  pose proof (network_new_spec a prefix Wn) as NN.
  assert (Pr : prefix <= low_bits (val a) /\ raw_prefix (val a) prefix = n_prefix x).
  { unfold raw_prefix, low_bits, prefix. destruct (mappedb (val a)).
    - specialize (Hm eq_refl). replace (N.of_nat (n_prefix x) + (2 ^ 32 - 96)) with (N.of_nat (n_prefix x - 96) + 1 * 2 ^ 32) by lia.
      rewrite N.mod_add, N.mod_small by lia. lia.
    - lia. }
  destruct Pr as [Pr1 Pr2]. replace (prefix <=? low_bits (val a)) with true in NN by lia.
  destruct NN as (n & -> & Wn' & N1 & N2 & N3 & N4 & N5 & N6). rewrite Pr2 in N1, N2.
  destruct (net_eq n x Wn' W ltac:(congruence) N2) as (E1 & E2 & E3).
  assert (C : set_country_code n (Some (cc_str (nth 0 r 0, nth 1 r 0))) =
              Ok (with_cc n (if fst (n_cc x) =? 0 then (0, 0) else n_cc x))).
  { rewrite R1, R2. pose proof (w_cc x W) as Cx. destruct (n_cc x) as [c1 c2]. cbn [fst snd] in *. unfold cc_str.
    destruct (N.eqb_spec c1 0) as [->|Nz]; cbn [set_country_code].
    - now rewrite N4.
    - destruct Cx as [[Cx _]|Cx]; [cbn in Cx; lia|]. cbn [fst snd] in Cx. pose proof (cc_valid_nz _ _ Cx).
      replace (c2 =? 0) with false by lia. cbn [set_country_code]. rewrite Cx. reflexivity. }
  rewrite C. cbn iota. f_equal. f_equal. destruct n as [nf n1 n2 np nc na' nfl]. cbn in *. subst.
  unfold as_read. unfold set_flag, set_asn, with_flags, with_asn, with_cc. cbn [n_family n_first n_last n_prefix n_cc n_asn n_flags].
  rewrite R3, R4, N.lor_0_l. reflexivity.
Qed.

(** ** paths *)
Definition zeros (q : list bool) : nat := length (filter negb q).
Lemma zeros_snoc q b : zeros (q ++ [b]) = (zeros q + if b then 0 else 1)%nat.
Proof. unfold zeros. rewrite filter_app, app_length. destruct b; reflexivity. Qed.

Definition last_bit (q : list bool) : N := N.b2n (last q false).
Lemma last_bit_snoc q b : last_bit (q ++ [b]) = N.b2n b.
Proof. unfold last_bit. now rewrite last_last. Qed.

(** the bits of an address after writing one *)
Lemma set_bit_pre a q b : wf a -> (length q < 128)%nat -> pre q (msb 128 (val a)) ->
  pre (q ++ [b]) (msb 128 (val (addr_set_bit a (length q) (N.b2n b)))).
Proof.
  intros W L P. pose proof (addr_set_bit_wf a (length q) (N.b2n b) W) as W'.
  apply pre_firstn. rewrite app_length. cbn [length]. apply nth_ext with (d := false) (d' := false).
  { rewrite firstn_length, msb_length, app_length. cbn [length]. lia. }
  rewrite firstn_length, msb_length. intros i Hi. rewrite nth_firstn_lt' by lia.
  apply N.b2n_inj. rewrite <- get_bit_msb by (auto; lia). rewrite addr_set_bit_get by (auto; try lia; destruct b; cbn; lia).
  destruct (Nat.eqb_spec i (length q)) as [->|D].
  - rewrite app_nth2, Nat.sub_diag by lia. reflexivity.
  - rewrite app_nth1 by lia. rewrite get_bit_msb by (auto; lia). destruct P as [s ->]. rewrite app_nth1 by lia. reflexivity.
Qed.

Lemma set_zero a i : wf a -> (i < 128)%nat -> val a = 0 -> val (addr_set_bit a i 0) = 0.
Proof.
  intros W L V. pose proof (addr_set_bit_wf a i 0 W) as W'. apply (msb_inj 128).
  - now apply val_bound.
  - lia.
  - apply nth_ext with (d := false) (d' := false); [now rewrite !msb_length|]. rewrite msb_length. intros j Hj.
    apply N.b2n_inj. rewrite <- get_bit_msb by auto. rewrite addr_set_bit_get by (auto; lia).
    rewrite (msb_nth 128 0) by auto. rewrite N.bits_0. destruct (_ =? _)%nat; auto. rewrite get_bit_msb, V, msb_nth, N.bits_0 by auto. reflexivity.
Qed.

Lemma pre_less p q r : pre p r -> pre q p -> pre q r.
Proof. intros. eapply pre_trans; eauto. Qed.

(** a path that the address block of IPv4 continues *)
Definition towards_v4 (q : list bool) : Prop := pre q (msb 128 (65535 * 2 ^ 32)) /\ (length q < 96)%nat.
Lemma mapped_towards a q : wf a -> mappedb (val a) = true -> pre q (msb 128 (val a)) -> (length q < 96)%nat -> towards_v4 q.
Proof.
  intros W M P L. split; auto. apply pre_firstn. apply pre_firstn in P. rewrite msb_prefix in P |- * by lia.
  pose proof (val_bound a W). unfold mappedb in M. apply N.eqb_eq in M.
  assert (E : val a / 2 ^ 32 = 65535 * 2 ^ 32 / 2 ^ 32) by (rewrite N.div_mul by lia; exact M).
  assert (D : forall v, v / blk (length q) = v / 2 ^ 32 / 2 ^ N.of_nat (96 - length q)).
  { intros v. rewrite N.div_div by (try apply N.pow_nonzero; lia). rewrite <- N.pow_add_r. unfold blk. do 2 f_equal. lia. }
  rewrite D in P. rewrite E in P. rewrite D. exact P.
Qed.

Definition all_zero (q : list bool) : Prop := Forall (fun b => b = false) q.

Lemma tree_eq_nil (t : tree) : t = Nil \/ t <> Nil.
Proof. destruct t; [now left|right; discriminate]. Qed.

(** how many nodes wait on the stack because the path turns left before them *)
Fixpoint turns (t : tree) (r : list bool) : nat :=
  match t, r with
  | Node _ _ z o, b :: r' => ((if b then 0 else match o with Nil => 0 | _ => 1 end) + turns (if b then o else z) r')%nat
  | _, _ => 0%nat
  end.

Section Tree.
Variable beyond : nat -> option N.
Variable d : db.
Variable nodes : list node_rec.
Variable nets : list network.
Hypothesis Hnode : forall i r, nth_error nodes i = Some r -> fetch_node d (N.of_nat i) = Ok (Some r).
Hypothesis Hcount : snd (d_tree d) = N.of_nat (length nodes).
Hypothesis Hnet : forall k n, nth_error nets k = Some n -> N.of_nat k <> NO_NETWORK /\
  exists r, rec_of n r /\ forall na lv, fetch_network d na lv (N.of_nat k) = Ok (network_from_database na lv r).
Hypothesis Kids : flat_map kids nodes = map N.of_nat (seq 1 (length nodes - 1)).

Definition below (q : list bool) (t : tree) (j : N) : Prop := exists r, sub t r <> Nil /\ at_ nodes 0 (q ++ r) = Some j.

Lemma push_ok e j b L : 0 < j -> j < N.of_nat (length nodes) -> (length (en_nodes e) <= 254)%nat ->
  push_node d e j b L = Ok (with_search e (en_addr e) ((j, b, L) :: en_nodes e) (en_visited e), 0%Z).
Proof.
  intros H1 H2 H3. unfold push_node, MAX_STACK_DEPTH. rewrite Hcount. replace (j =? 0) with false by lia.
  replace (N.to_nat 256 <=? length (en_nodes e))%nat with false by lia. replace (N.of_nat (length nodes) <=? j) with false by lia.
  replace (N.to_nat 256 <=? S (length (en_nodes e)))%nat with false by lia. reflexivity.
Qed.

Lemma push_none e b L : push_node d e 0 b L = Ok (e, 0%Z).
Proof. reflexivity. Qed.

Lemma with_with e a n v a' n' v' : with_search (with_search e a n v) a' n' v' = with_search e a' n' v'.
Proof. reflexivity. Qed.

Lemma with_same e : with_search e (en_addr e) (en_nodes e) (en_visited e) = e.
Proof. now destruct e. Qed.

Lemma tree_steps t : forall q e i rest, t <> Nil -> wf_at q t -> rep nodes nets t (N.to_nat i) -> at_ nodes 0 q = Some i ->
  en_nodes e = (i, last_bit q, length q) :: rest -> wf (en_addr e) -> pre (removelast q) (msb 128 (val (en_addr e))) ->
  (all_zero q -> val (en_addr e) = 0) ->
  (forall j, below q t j -> ~ In j (en_visited e)) ->
  (forall r, sub t r <> Nil -> (length rest + 1 + length r + turns t r <= 255)%nat) ->
  (forall r x, nt t r = Some x -> ~ (towards_v4 (q ++ r) /\ ~ all_zero (q ++ r))) ->
  exists n a' v', steps beyond d n e (map as_read (stored t)) (with_search e a' rest v') /\
    wf a' /\ pre (removelast q) (msb 128 (val a')) /\ (forall j, In j v' <-> In j (en_visited e) \/ below q t j).
Proof.
  induction t as [|dl net z IHz o IHo]; intros q e i rest Nt W R A En Wa P Z Vis Room V4; [congruence|].
  pose proof R as R0. destruct R as (iz & io & x & E & Rz & Ro & Rx).
  destruct W as (Lq & Wd & Wx & Wz & Wo).
  assert (Li : (N.to_nat i < length nodes)%nat) by (apply nth_error_Some; congruence).
  (* the first step *)
  set (a1 := addr_set_bit (en_addr e) (length q - 1) (last_bit q)).
  assert (W1 : wf a1) by now apply addr_set_bit_wf.
  assert (P1 : pre q (msb 128 (val a1))).
  { unfold a1. destruct q as [|b q _] using rev_ind; [exists (msb 128 (val (addr_set_bit (en_addr e) (length (@nil bool) - 1) (last_bit [])))); reflexivity|].
    rewrite last_bit_snoc, app_length. cbn [length]. replace (length q + 1 - 1)%nat with (length q) by lia.
    rewrite removelast_last in P. rewrite app_length in Lq. cbn [length] in Lq. apply set_bit_pre; auto. lia. }
  assert (Z1 : all_zero q -> val a1 = 0).
  { intros Q. unfold a1. assert (last_bit q = 0) as ->.
    { unfold last_bit. destruct q as [|b q _] using rev_ind; auto. rewrite last_last. apply Forall_app in Q as [_ Q]. inversion Q; subst. reflexivity. }
    apply set_zero; auto. lia. }
  assert (Bz : z <> Nil -> 0 < iz /\ rep nodes nets z (N.to_nat iz) /\ iz < N.of_nat (length nodes) /\ at_ nodes 0 (q ++ [false]) = Some iz).
  { intros Q. destruct z as [|dz nz zz oz]; [congruence|]. destruct Rz as [I1 I2]. split; auto. split; auto.
    pose proof I2 as I3. destruct I3 as (? & ? & ? & X & _). assert (N.to_nat iz < length nodes)%nat by (apply nth_error_Some; congruence). split; [lia|].
    rewrite at_app, A. cbn [at_]. rewrite E. cbn [fst snd]. now replace (iz =? 0) with false by lia. }
  assert (Bo : o <> Nil -> 0 < io /\ rep nodes nets o (N.to_nat io) /\ io < N.of_nat (length nodes) /\ at_ nodes 0 (q ++ [true]) = Some io).
  { intros Q. destruct o as [|dz nz zz oz]; [congruence|]. destruct Ro as [I1 I2]. split; auto. split; auto.
    pose proof I2 as I3. destruct I3 as (? & ? & ? & X & _). assert (N.to_nat io < length nodes)%nat by (apply nth_error_Some; congruence). split; [lia|].
    rewrite at_app, A. cbn [at_]. rewrite E. cbn [fst snd]. now replace (io =? 0) with false by lia. }
  assert (Roomz : z <> Nil -> (length rest + 2 + match o with Nil => 0 | _ => 1 end <= 255)%nat).
  { intros Q. specialize (Room [false] Q). cbn [length turns] in Room. destruct z; cbn [turns] in Room; [congruence|]. lia. }
  assert (Roomo : o <> Nil -> (length rest + 2 <= 255)%nat).
  { intros Q. specialize (Room [true] Q). cbn [length turns] in Room. lia. }
  set (tl := (i, last_bit q, length q) :: rest) in *.
  set (no := match o with Nil => tl | _ => (io, 1, S (length q)) :: tl end).
  set (nz := match z with Nil => no | _ => (iz, 0, S (length q)) :: no end).
  set (v1 := i :: en_visited e).
  set (ev := match net with Some y => Found (as_read y) | None => Quiet end).
  assert (S1 : step0 beyond d e = Ok (with_search e a1 nz v1, ev)).
  { unfold step0. rewrite En. unfold tl. rewrite Hcount. replace (N.of_nat (length nodes) <=? i) with false by lia.
    replace (existsb (N.eqb i) (en_visited e)) with false.
    2:{ symmetry. apply not_true_iff_false. intros X. apply existsb_exists in X as (j & X1 & X2). apply N.eqb_eq in X2. subst j.
        apply (Vis i); auto. exists []. rewrite app_nil_r. split; [cbn [sub]; discriminate|exact A]. }
    unfold set_bit. replace (length q - 1 <? 128)%nat with true by lia. cbn [bind]. fold a1. fold v1.
    rewrite <- (N2Nat.id i), (Hnode _ _ E), N2Nat.id. cbn [bind fst snd].
    assert (T1 : push_node d (with_search e a1 tl v1) io 1 (S (length q)) = Ok (with_search e a1 no v1, 0%Z)).
    { unfold no. destruct (tree_eq_nil o) as [Qo|Qo].
      - rewrite Qo in Ro. rewrite Ro, Qo. apply push_none.
      - destruct (Bo Qo) as (I1 & _ & I3 & _). specialize (Roomo Qo). rewrite push_ok; auto.
        + cbn [with_search en_addr en_nodes en_visited]. destruct o; [congruence|reflexivity].
        + cbn [with_search en_nodes]. unfold tl. cbn [length]. lia. }
    unfold tl in T1. rewrite T1. cbn [bind]. cbn [Z.eqb negb].
    assert (T2 : push_node d (with_search e a1 no v1) iz 0 (S (length q)) = Ok (with_search e a1 nz v1, 0%Z)).
    { unfold nz. destruct (tree_eq_nil z) as [Qz|Qz].
      - rewrite Qz in Rz. rewrite Rz, Qz. apply push_none.
      - destruct (Bz Qz) as (I1 & _ & I3 & _). specialize (Roomz Qz). rewrite push_ok; auto.
        + cbn [with_search en_addr en_nodes en_visited]. destruct z; [congruence|reflexivity].
        + cbn [with_search en_nodes]. unfold no, tl. destruct o; cbn [length]; lia. }
    rewrite T2. cbn [bind]. cbn [Z.eqb negb]. unfold is_leaf. cbn [snd]. unfold ev. destruct net as [y|].
    - destruct Rx as (k & -> & Ek). destruct (Hnet k y Ek) as (Nk & r & Rr & F).
      replace (N.of_nat k =? NO_NETWORK) with false by lia. cbn [negb with_search en_addr]. rewrite F. cbn [bind].
      destruct (Wx y eq_refl) as [Wy Py]. replace (length q) with (n_prefix y) by (now rewrite <- path_length, Py).
      rewrite from_database_any with (x := y); auto.
      + now rewrite Py.
      + intros M. destruct (Nat.le_gt_cases 96 (n_prefix y)) as [|G]; auto. exfalso.
        assert (Lq' : (length q < 96)%nat) by (now rewrite <- Py, path_length).
        apply (V4 [] y eq_refl). rewrite app_nil_r. split; [eapply mapped_towards; eauto|].
        intros Q. rewrite (Z1 Q) in M. discriminate.
    - rewrite Rx. reflexivity. }
  (* the rest *)
  assert (Vi : forall (b : bool) r c, c = (if b then o else z) -> sub c r <> Nil -> forall j, at_ nodes 0 ((q ++ [b]) ++ r) = Some j -> ~ In j v1).
  { intros b r c -> Hc j Hj [<-|I].
    - pose proof (at_inj nodes Kids _ _ _ A Hj) as X. rewrite <- app_assoc in X. apply (f_equal (@length bool)) in X.
      rewrite !app_length in X. cbn [length] in X. lia.
    - apply (Vis j); auto. exists (b :: r). rewrite <- app_assoc in Hj. split; auto. }
  assert (GZ : exists n2 a2 v2, steps beyond d n2 (with_search e a1 nz v1) (map as_read (stored z)) (with_search e a2 no v2) /\
    wf a2 /\ pre q (msb 128 (val a2)) /\ (forall j, In j v2 <-> In j v1 \/ below (q ++ [false]) z j)).
  { destruct (tree_eq_nil z) as [Qz|Qz].
    - exists 0%nat, a1, v1. unfold nz. rewrite Qz. split; [constructor|]. split; auto. split; auto. intros j. split; auto.
      intros [I|(r & X & _)]; auto. now rewrite sub_nil in X.
    - destruct (Bz Qz) as (I1 & I2 & I3 & I4). specialize (Roomz Qz).
      destruct (IHz (q ++ [false]) (with_search e a1 nz v1) iz no) as (n2 & a2 & v2 & S2 & W2 & P2 & V2); auto.
      + cbn [with_search en_nodes]. unfold nz. destruct z; [congruence|]. rewrite last_bit_snoc, app_length. cbn [length N.b2n].
        do 2 f_equal. lia.
      + cbn [with_search en_addr]. now rewrite removelast_last.
      + cbn [with_search en_addr]. intros Q. apply Forall_app in Q as [Q _]. auto.
      + cbn [with_search en_visited]. intros j (r & X1 & X2). eapply (Vi false); eauto.
      + intros r Hr. specialize (Room (false :: r) Hr). cbn [length turns] in Room. unfold no, tl. destruct o; cbn [length]; lia.
      + intros r y Hr. rewrite <- app_assoc. apply (V4 (false :: r) y). exact Hr.
      + exists n2, a2, v2. rewrite with_with in S2. split; auto. split; auto. rewrite removelast_last in P2. split; auto. }
  destruct GZ as (n2 & a2 & v2 & S2 & W2 & P2 & V2).
  assert (GO : exists n3 a3 v3, steps beyond d n3 (with_search e a2 no v2) (map as_read (stored o)) (with_search e a3 tl v3) /\
    wf a3 /\ pre q (msb 128 (val a3)) /\ (forall j, In j v3 <-> In j v2 \/ below (q ++ [true]) o j)).
  { destruct (tree_eq_nil o) as [Qo|Qo].
    - exists 0%nat, a2, v2. unfold no. rewrite Qo. split; [constructor|]. split; auto. split; auto. intros j. split; auto.
      intros [I|(r & X & _)]; auto. now rewrite sub_nil in X.
    - destruct (Bo Qo) as (I1 & I2 & I3 & I4). specialize (Roomo Qo).
      destruct (IHo (q ++ [true]) (with_search e a2 no v2) io tl) as (n3 & a3 & v3 & S3 & W3 & P3 & V3); auto.
      + cbn [with_search en_nodes]. unfold no. destruct o; [congruence|]. rewrite last_bit_snoc, app_length. cbn [length N.b2n].
        do 2 f_equal. lia.
      + cbn [with_search en_addr]. now rewrite removelast_last.
      + intros Q. apply Forall_app in Q as [_ Q]. inversion Q. discriminate.
      + cbn [with_search en_visited]. intros j (r & X1 & X2) I. apply V2 in I as [I|(r' & X3 & X4)].
        * eapply (Vi true); eauto.
        * pose proof (at_inj nodes Kids _ _ _ X2 X4) as X. rewrite <- !app_assoc in X. apply app_inv_head in X. discriminate.
      + intros r Hr. specialize (Room (true :: r) Hr). cbn [length turns] in Room. unfold tl. cbn [length]. lia.
      + intros r y Hr. rewrite <- app_assoc. apply (V4 (true :: r) y). exact Hr.
      + exists n3, a3, v3. rewrite with_with in S3. split; auto. split; auto. rewrite removelast_last in P3. split; auto. }
  destruct GO as (n3 & a3 & v3 & S3 & W3 & P3 & V3).
  assert (S4 : step0 beyond d (with_search e a3 tl v3) = Ok (with_search e a3 rest v3, Quiet)).
  { unfold step0. cbn [with_search en_nodes en_visited en_addr]. unfold tl. rewrite Hcount.
    replace (N.of_nat (length nodes) <=? i) with false by lia.
    replace (existsb (N.eqb i) v3) with true; [reflexivity|]. symmetry. apply existsb_exists. exists i. split; [|apply N.eqb_refl].
    apply V3. left. apply V2. left. now left. }
  pose proof (steps_app _ _ _ _ _ _ _ _ _ S2 (steps_app _ _ _ _ _ _ _ _ _ S3 (steps_quiet _ _ _ _ _ _ _ S4 (steps_nil _ _ _)))) as T.
  exists (S (n2 + (n3 + 1))), a3, v3. split; [|split; [exact W3|split]].
  - cbn [stored]. rewrite !map_app. rewrite app_nil_r in T. unfold ev in S1. destruct net as [y|]; cbn [map app].
    + eapply steps_found; [exact S1|exact T].
    + eapply steps_quiet; [exact S1|exact T].
  - eapply pre_trans; [|exact P3]. destruct q as [|b q _] using rev_ind; [apply pre_refl|]. rewrite removelast_last. apply pre_app.
  - intros j. rewrite V3, V2. unfold v1. cbn [In]. split.
    + intros [[[<-|I]|(r & X1 & X2)]|(r & X1 & X2)]; auto; right.
      * exists []. rewrite app_nil_r. split; [cbn [sub]; discriminate|exact A].
      * exists (false :: r). rewrite <- app_assoc in X2. auto.
      * exists (true :: r). rewrite <- app_assoc in X2. auto.
    + intros [I|([|b r] & X1 & X2)]; auto.
      * rewrite app_nil_r in X2. left. left. left. congruence.
      * cbn [sub] in X1. destruct b; [right|left; right]; exists r; rewrite <- app_assoc; auto.
Qed.
End Tree.
