(** loc_network_exclude and loc_network_exclude_list. *)
From Coq Require Import NArith ZArith List Bool Arith Lia ZifyBool ZifyNat ZifyN Sorting.Sorted.
From Verif Require Import Base LemmasBase ModelAddress LemmasAddress ModelCountryCode ModelNetwork
  LemmasNetwork ModelNetworkList LemmasNetworkList.
Import ListNotations.
Open Scope N_scope.

Definition strict (n m : network) : Prop :=
  lo n <= lo m /\ hi m <= hi n /\ (n_prefix n < n_prefix m)%nat.

Definition exclude_bad (n m : network) : Prop :=
  ((n_prefix n <= 79 < n_prefix m)%nat /\ lo m < 2 ^ 49) \/
  ((n_prefix n <= 95 < n_prefix m)%nat /\ 65534 * 2 ^ 32 <= lo m < 65536 * 2 ^ 32).

Definition attr_eq (x n : network) : Prop :=
  n_family x = n_family n /\ n_asn x = n_asn n /\ n_flags x = n_flags n /\ cc_str (n_cc x) = cc_str (n_cc n).

Definition disj (n m : network) : Prop := hi n < lo m \/ hi m < lo n.

Record piece (n m x : network) : Prop := {
  p_wf : net_wf x;
  p_lo : lo n <= lo x;
  p_hi : hi x <= hi n;
  p_long : (n_prefix n < n_prefix x <= n_prefix m)%nat;
  p_disj : disj x m;
  p_parent : lo x / blk (n_prefix x - 1) = lo m / blk (n_prefix x - 1);
  p_attr : attr_eq x n
}.

Definition cover (l : list network) (v : N) : Prop := exists x, In x l /\ inb x v.

Lemma split_bad_exclude n m : net_wf n -> net_wf m -> strict n m -> split_bad n -> exclude_bad n m.
Proof.
  intros Hn Hm (S1 & S2 & S3) [[L P]|[L P]].
  - left. split; [lia|]. pose proof (hi_lo n Hn) as H. pose proof (lo_le_hi m Hm). rewrite L, P in H.
    unfold blk in H. cbn in H. lia.
  - right. split; [lia|]. pose proof (hi_lo n Hn) as H. pose proof (lo_le_hi m Hm). rewrite P in H.
    unfold blk in H. cbn in H. lia.
Qed.

Lemma prefix_unique n v p : net_wf n -> inb n v -> n_prefix n = p -> lo n = v / blk p * blk p.
Proof.
  intros H I <-. apply inb_iff in I; auto. rewrite I. now apply lo_div.
Qed.

Lemma exclude_bad_split n m : net_wf n -> net_wf m -> strict n m -> (n_prefix m = S (n_prefix n))%nat ->
  exclude_bad n m -> split_bad n.
Proof.
  intros Hn Hm (S1 & S2 & S3) P B. pose proof (lo_le_hi m Hm).
  assert (I : inb n (lo m)) by (split; lia).
  destruct B as [[B1 B2]|[B1 B2]].
  - left. assert (E : n_prefix n = 79%nat) by lia. split; auto.
    rewrite (prefix_unique n (lo m) 79 Hn I E). change (blk 79) with (2 ^ 49). now rewrite N.div_small.
  - right. assert (E : n_prefix n = 95%nat) by lia. split; auto.
    rewrite (prefix_unique n (lo m) 95 Hn I E). change (blk 95) with (2 ^ 33).
    replace (lo m / 2 ^ 33) with 32767; [reflexivity|].
    apply (N.div_unique (lo m) (2 ^ 33) 32767 (lo m - 32767 * 2 ^ 33)); lia.
Qed.

Lemma exclude_bad_mono n n' m : (n_prefix n <= n_prefix n')%nat -> exclude_bad n' m -> exclude_bad n m.
Proof. intros H [[A B]|[A B]]; [left|right]; split; auto; lia. Qed.

Lemma exclude_bad_step n n' m : net_wf n -> net_wf m -> strict n m -> n_prefix n' = S (n_prefix n) ->
  ~ split_bad n -> exclude_bad n m -> exclude_bad n' m.
Proof.
  intros Hn Hm Hs P Nb B. pose proof (lo_le_hi m Hm). destruct Hs as (S1 & S2 & S3).
  assert (I : inb n (lo m)) by (split; lia).
  destruct B as [[B1 B2]|[B1 B2]].
  - left. split; auto. destruct (Nat.eq_dec (n_prefix n) 79) as [E|E]; [|lia].
    exfalso. apply Nb. left. split; auto.
    rewrite (prefix_unique n (lo m) 79 Hn I E). change (blk 79) with (2 ^ 49). now rewrite N.div_small.
  - right. split; auto. destruct (Nat.eq_dec (n_prefix n) 95) as [E|E]; [|lia].
    exfalso. apply Nb. right. split; auto.
    rewrite (prefix_unique n (lo m) 95 Hn I E). change (blk 95) with (2 ^ 33).
    replace (lo m / 2 ^ 33) with 32767; [reflexivity|].
    apply (N.div_unique (lo m) (2 ^ 33) 32767 (lo m - 32767 * 2 ^ 33)); lia.
Qed.

Lemma exclude_bad_dec n m : exclude_bad n m \/ ~ exclude_bad n m.
Proof.
  destruct ((n_prefix n <=? 79)%nat && (79 <? n_prefix m)%nat && (lo m <? 2 ^ 49) ||
            (n_prefix n <=? 95)%nat && (95 <? n_prefix m)%nat && (65534 * 2 ^ 32 <=? lo m) && (lo m <? 65536 * 2 ^ 32)) eqn:E.
  - left. unfold exclude_bad. lia.
  - right. unfold exclude_bad. lia.
Qed.

Lemma split_bad_dec n : split_bad n \/ ~ split_bad n.
Proof.
  unfold split_bad. destruct (N.eq_dec (lo n) 0), (N.eq_dec (lo n) (65534 * 2 ^ 32)),
    (Nat.eq_dec (n_prefix n) 79), (Nat.eq_dec (n_prefix n) 95); lia.
Qed.

Lemma attr_eq_trans a b c : attr_eq a b -> attr_eq b c -> attr_eq a c.
Proof. unfold attr_eq. intuition congruence. Qed.

Lemma disj_sym a b : disj a b -> disj b a.
Proof. unfold disj. tauto. Qed.

(** the half of [n] that does not contain [m] is a piece *)
Lemma half_piece n m s s' : net_wf n -> net_wf m -> net_wf s -> net_wf s' -> strict n m ->
  n_prefix s = S (n_prefix n) -> lo n <= lo s -> hi s <= hi n -> lo s' <= lo m -> hi m <= hi s' ->
  disj s s' -> attr_eq s n -> piece n m s.
Proof.
  intros Hn Hm Hs Hs' (S1 & S2 & S3) P L1 L2 M1 M2 D A.
  pose proof (lo_le_hi m Hm). pose proof (lo_le_hi s Hs).
  constructor; auto; try lia.
  - unfold disj in *. lia.
  - rewrite P. cbn [Nat.sub]. rewrite Nat.sub_0_r.
    assert (I1 : inb n (lo s)) by (split; lia). assert (I2 : inb n (lo m)) by (split; lia).
    apply inb_iff in I1, I2; auto. congruence.
Qed.

Lemma piece_mono n n' m x : piece n' m x -> lo n <= lo n' -> hi n' <= hi n ->
  (n_prefix n <= n_prefix n')%nat -> attr_eq n' n -> piece n m x.
Proof.
  intros [W L H P D Q A] L1 L2 P1 A1. constructor; auto; try lia. eapply attr_eq_trans; eauto.
Qed.

Definition excluded (n m : network) (news : list network) : Prop :=
  (forall v, cover news v <-> inb n v /\ ~ inb m v) /\ ForallOrdPairs disj news.

Definition wsum (l : list network) : N := fold_right (fun x w => blk (n_prefix x) + w) 0 l.

Lemma ins_all_cons l x ns : ins_all l (x :: ns) = ins_all (ins x l) ns.
Proof. reflexivity. Qed.

Lemma excluded_cons n m s s' news : net_wf s -> net_wf s' ->
  (forall v, inb n v <-> inb s v \/ inb s' v) -> disj s s' -> lo s' <= lo m -> hi m <= hi s' ->
  (forall x, In x news -> piece s' m x) -> excluded s' m news -> excluded n m (s :: news).
Proof.
  intros Hs Hs' U D M1 M2 P [C O]. pose proof (lo_le_hi s Hs). pose proof (lo_le_hi s' Hs').
  split.
  - intros v. split.
    + intros (x & [<-|Hx] & I).
      * split; [apply U; auto|]. unfold inb, disj in *. lia.
      * assert (cover news v) by (exists x; auto). apply C in H1 as [I1 I2]. split; auto. apply U; auto.
    + intros [I1 I2]. apply U in I1 as [I1|I1].
      * exists s. split; cbn; auto.
      * destruct (proj2 (C v) (conj I1 I2)) as (x & Hx & I). exists x. split; cbn; auto.
  - constructor; auto. apply Forall_forall. intros x Hx. destruct (P x Hx) as [W L Hh _ _ _ _].
    pose proof (lo_le_hi x W). unfold disj in *. lia.
Qed.

Lemma excluded_one n m s s' : net_wf s -> net_wf m ->
  (forall v, inb n v <-> inb s v \/ inb s' v) -> disj s s' -> lo m = lo s' -> hi m = hi s' ->
  excluded n m [s].
Proof.
  intros Hs Hm U D L H. split.
  - intros v. rewrite U. unfold inb. rewrite L, H. split.
    + intros (x & [<-|[]] & I). unfold inb, disj in *. lia.
    + intros [[I|I] I2]; [|tauto]. exists s. split; cbn; auto.
  - constructor; auto. constructor.
Qed.

Lemma exclude_rec_spec fuel : forall n m L l,
  net_wf n -> net_wf m -> strict n m -> repr L l -> sorted l ->
  (n_prefix m - n_prefix n <= fuel)%nat ->
  exists L' news r, exclude_rec n m L fuel = Ok (L', r) /\ repr L' (ins_all l news) /\
    (forall x, In x news -> piece n m x) /\ wsum news < blk (n_prefix n) /\
    ((exclude_bad n m /\ r = 1%Z) \/ (~ exclude_bad n m /\ r = 0%Z /\ excluded n m news)).
Proof.
  induction fuel as [|fuel IH]; intros n m L l Hn Hm Hs R So F; cbn [exclude_rec].
  { destruct Hs as (_ & _ & Hs). lia. }
  assert (P : (n_prefix n < 128)%nat) by (destruct Hs as (_ & _ & Hs); pose proof (w_prefix m Hm); lia).
  destruct (split_bad_dec n) as [B|B].
  { rewrite (subnets_bad n Hn B). exists L, [], 1%Z. split; auto. split; [exact R|].
    split; [intros x []|]. split; [apply blk_pos|]. left. split; auto. now apply split_bad_exclude. }
  destruct (subnets_spec n Hn P B)
    as (s1 & s2 & -> & W1 & W2 & P1 & P2 & L1 & L2 & F1 & F2 & (A1 & G1 & C1) & (A2 & G2 & C2)).
  pose proof (blk_S (n_prefix n) P) as BS. pose proof (blk_pos (S (n_prefix n))) as BP.
  pose proof (hi_lo s1 W1) as H1. pose proof (hi_lo s2 W2) as H2. pose proof (hi_lo n Hn) as H0.
  pose proof (hi_lo m Hm) as H3. rewrite P1 in H1. rewrite P2 in H2.
  assert (U : forall v, inb n v <-> inb s1 v \/ inb s2 v) by (intros v; unfold inb; lia).
  assert (D : disj s1 s2) by (unfold disj; lia).
  assert (E1 : attr_eq s1 n) by (unfold attr_eq; auto). assert (E2 : attr_eq s2 n) by (unfold attr_eq; auto).
  pose proof Hs as (S1 & S2 & S3). pose proof (lo_le_hi m Hm) as LHm.
  rewrite !network_cmp_0 by auto.
  destruct (N.eqb_spec (K m) (K s1)) as [Q|Q].
  { apply K_eq in Q as [Q1 Q2]; auto.
    assert (Hh : hi m = hi s1) by (rewrite H1, H3, Q1, Q2, P1; reflexivity).
    destruct (list_push_spec L l s2 R So W2) as (L' & -> & R'). cbn [bind].
    exists L', [s2], 0%Z. split; auto. split; [exact R'|]. split.
    - intros x [<-|[]]. apply (half_piece n m s2 s1); auto; try lia. now apply disj_sym.
    - split; [cbn [wsum fold_right]; rewrite ?P1, ?P2; lia|]. right. split.
      + intros X. apply B. apply (exclude_bad_split n m); auto. lia.
      + split; auto. apply (excluded_one n m s2 s1); auto.
        * intros v. rewrite U. tauto.
        * now apply disj_sym. }
  destruct (N.eqb_spec (K m) (K s2)) as [Q'|Q'].
  { apply K_eq in Q' as [Q1 Q2]; auto.
    assert (Hh : hi m = hi s2) by (rewrite H2, H3, Q1, Q2, P2; reflexivity).
    destruct (list_push_spec L l s1 R So W1) as (L' & -> & R'). cbn [bind].
    exists L', [s1], 0%Z. split; auto. split; [exact R'|]. split.
    - intros x [<-|[]]. apply (half_piece n m s1 s2); auto; lia.
    - split; [cbn [wsum fold_right]; rewrite ?P1, ?P2; lia|]. right. split.
      + intros X. apply B. apply (exclude_bad_split n m); auto. lia.
      + split; auto. apply (excluded_one n m s1 s2); auto. }
  assert (I : inb n (lo m)) by (split; lia).
  assert (PM : (n_prefix m <> S (n_prefix n))%nat).
  { intros PE. apply U in I. destruct I as [I|I].
    - apply Q. apply K_eq; auto. split; [|congruence].
      apply (inb_iff s1) in I; auto. rewrite (lo_div s1 W1), (lo_div m Hm), PE, P1. rewrite P1 in I. congruence.
    - apply Q'. apply K_eq; auto. split; [|congruence].
      apply (inb_iff s2) in I; auto. rewrite (lo_div s2 W2), (lo_div m Hm), PE, P2. rewrite P2 in I. congruence. }
  assert (N1 : inb s1 (lo m) -> lo s1 <= lo m /\ hi m <= hi s1).
  { intros J. apply (nest_bounds s1 m (lo m)); auto. now apply inb_lo. lia. }
  assert (N2 : inb s2 (lo m) -> lo s2 <= lo m /\ hi m <= hi s2).
  { intros J. apply (nest_bounds s2 m (lo m)); auto. now apply inb_lo. lia. }
  destruct (is_subnet s1 m) eqn:T1.
  { apply is_subnet_iff in T1 as [T1 T2]; auto.
    destruct (list_push_spec L l s2 R So W2) as (La & -> & Ra). cbn [bind].
    destruct (IH s1 m La (ins s2 l) W1 Hm) as (L' & news & r & E & R' & Pc & Ws & X); auto.
    { split; [|split]; auto; lia. } { now apply sorted_ins. } { lia. }
    rewrite E. exists L', (s2 :: news), r. split; auto. split; [exact R'|].
    assert (P2' : piece n m s2) by (apply (half_piece n m s2 s1); auto; try lia; now apply disj_sym).
    split.
    - intros x [<-|Hx]; auto. apply (piece_mono n s1); auto; lia.
    - split; [cbn [wsum fold_right]; fold (wsum news); rewrite ?P1, ?P2 in *; lia|].
      destruct X as [[X1 X2]|(X1 & X2 & X3)].
      + left. split; auto. apply (exclude_bad_mono n s1); auto. lia.
      + right. split; [|split; auto].
        * intros Y. apply X1. apply (exclude_bad_step n s1); auto.
        * apply (excluded_cons n m s2 s1); auto; [|now apply disj_sym]. intros v. rewrite U. tauto. }
  destruct (is_subnet s2 m) eqn:T2.
  { apply is_subnet_iff in T2 as [T2 T3]; auto.
    destruct (list_push_spec L l s1 R So W1) as (La & -> & Ra). cbn [bind].
    destruct (IH s2 m La (ins s1 l) W2 Hm) as (L' & news & r & E & R' & Pc & Ws & X); auto.
    { split; [|split]; auto; lia. } { now apply sorted_ins. } { lia. }
    rewrite E. exists L', (s1 :: news), r. split; auto. split; [exact R'|].
    assert (P2' : piece n m s1) by (apply (half_piece n m s1 s2); auto; lia).
    split.
    - intros x [<-|Hx]; auto. apply (piece_mono n s2); auto; lia.
    - split; [cbn [wsum fold_right]; fold (wsum news); rewrite ?P1, ?P2 in *; lia|].
      destruct X as [[X1 X2]|(X1 & X2 & X3)].
      + left. split; auto. apply (exclude_bad_mono n s2); auto. lia.
      + right. split; [|split; auto].
        * intros Y. apply X1. apply (exclude_bad_step n s2); auto.
        * apply (excluded_cons n m s1 s2); auto. }
  exfalso. apply U in I. destruct I as [I|I].
  - apply N1 in I. apply (is_subnet_iff s1 m) in I; auto. congruence.
  - apply N2 in I. apply (is_subnet_iff s2 m) in I; auto. congruence.
Qed.

(** covering by the list after insertions *)
Lemma cover_ins n l v : net_wf n -> sorted l -> cover (ins n l) v <-> inb n v \/ cover l v.
Proof.
  intros W So. split.
  - intros (x & Hx & I). apply ins_in in Hx as [->|Hx]; auto. right. exists x; auto.
  - intros [I|(x & Hx & I)].
    + destruct (mem n l) eqn:M.
      * rewrite ins_mem by auto. apply mem_iff in M as (x & Hx & E).
        assert (Wx := sorted_wf l x So Hx). apply K_eq in E as [E1 E2]; auto.
        exists x. split; auto. unfold inb in *. rewrite (hi_lo x Wx), (hi_lo n W) in *. rewrite E1, E2. auto.
      * exists n. split; auto. now apply ins_new.
    + exists x. split; auto. now apply ins_in_old.
Qed.

Lemma cover_ins_all ns : forall l v, Forall net_wf ns -> sorted l ->
  cover (ins_all l ns) v <-> cover ns v \/ cover l v.
Proof.
  induction ns as [|n ns IH]; intros l v F So.
  - cbn. split; auto. intros [(x & [] & _)|]; auto.
  - inversion F; subst. rewrite ins_all_cons, IH by (auto; now apply sorted_ins). rewrite cover_ins by auto.
    split.
    + intros [(x & Hx & I)|[I|C]]; auto.
      * left. exists x; cbn; auto.
      * left. exists n; cbn; auto.
    + intros [(x & [<-|Hx] & I)|C]; auto. left. exists x; auto.
Qed.

Lemma ins_all_in ns : forall l x, In x (ins_all l ns) -> In x ns \/ In x l.
Proof.
  induction ns as [|n ns IH]; intros l x H; auto. rewrite ins_all_cons in H.
  apply IH in H as [H|H]; [cbn; auto|]. apply ins_in in H as [->|H]; cbn; auto.
Qed.

Lemma ins_all_old ns : forall l x, In x l -> In x (ins_all l ns).
Proof.
  induction ns as [|n ns IH]; intros l x H; auto. rewrite ins_all_cons. apply IH. now apply ins_in_old.
Qed.

(** exclude_to_list *)
Lemma not_strict_cases n m : net_wf n -> net_wf m -> is_subnet n m = true -> (network_cmp n m =? 0)%Z = false ->
  strict n m.
Proof.
  intros Hn Hm H C. rewrite network_cmp_0 in C by auto. apply is_subnet_iff in H as [H1 H2]; auto.
  pose proof (incl_prefix n m Hn Hm H1 H2). split; [auto|]. split; auto.
  destruct (Nat.eq_dec (n_prefix n) (n_prefix m)) as [E|E]; [|lia]. exfalso.
  assert (K n = K m); [|lia]. apply K_eq; auto. split; auto.
  rewrite (hi_lo n Hn), (hi_lo m Hm), E in H2. lia.
Qed.

Lemma strict_dec n m : strict n m \/ ~ strict n m.
Proof. unfold strict. lia. Qed.

Lemma exclude_to_list_spec n m L l : net_wf n -> net_wf m -> repr L l -> sorted l ->
  (~ strict n m /\ exclude_to_list n m L = Ok (L, 0%Z)) \/
  (strict n m /\ exists L' news r, exclude_to_list n m L = Ok (L', r) /\ repr L' (ins_all l news) /\
    (forall x, In x news -> piece n m x) /\ wsum news < blk (n_prefix n) /\
    ((exclude_bad n m /\ r = 1%Z) \/ (~ exclude_bad n m /\ r = 0%Z /\ excluded n m news))).
Proof.
  intros Hn Hm R So. unfold exclude_to_list. destruct (is_subnet n m) eqn:E; cbn [negb].
  - destruct (network_cmp n m =? 0)%Z eqn:C.
    + left. split; auto. intros (_ & _ & X). rewrite network_cmp_0 in C by auto.
      apply N.eqb_eq, K_eq in C as [C1 C2]; auto. lia.
    + right. assert (St := not_strict_cases n m Hn Hm E C). split; auto.
      apply exclude_rec_spec; auto. pose proof (w_prefix m Hm). lia.
  - left. split; auto. intros (X1 & X2 & _).
    assert (is_subnet n m = true) by (apply is_subnet_iff; auto). congruence.
Qed.

(** loc_network_exclude *)
Definition all_disj (l : list network) : Prop := forall x y, In x l -> In y l -> x <> y -> disj x y.

Lemma ord_disj_all l : ForallOrdPairs disj l -> all_disj l.
Proof.
  intros O x y Hx Hy Ne. destruct (ForallOrdPairs_In O x y Hx Hy) as [E|[D|D]]; [congruence|auto|now apply disj_sym].
Qed.

Lemma network_exclude_spec n m : net_wf n -> net_wf m ->
  (~ strict n m /\ exists L, network_exclude n m = Ok L /\ repr L []) \/
  (strict n m /\ exclude_bad n m /\ network_exclude n m = Err 1) \/
  (strict n m /\ ~ exclude_bad n m /\ exists L l, network_exclude n m = Ok L /\ repr L l /\ sorted l /\
     all_disj l /\ (forall v, cover l v <-> inb n v /\ ~ inb m v) /\ (forall x, In x l -> piece n m x)).
Proof.
  intros Hn Hm. unfold network_exclude.
  destruct (exclude_to_list_spec n m list_new [] Hn Hm list_new_repr sorted_nil)
    as [[St E]|(St & L & news & r & E & R & Pc & _ & X)]; rewrite E; cbn [bind].
  - left. split; auto. exists list_new. split; auto. apply list_new_repr.
  - destruct X as [[B ->]|(B & -> & X1 & X2)]; cbn [Z.eqb].
    + right. left. auto.
    + right. right. split; auto. split; auto. exists L, (ins_all [] news). split; auto. split; auto.
      assert (F : Forall net_wf news) by (apply Forall_forall; intros x Hx; apply (Pc x Hx)).
      assert (In0 : forall x, In x (ins_all [] news) -> In x news).
      { intros x Hx. apply ins_all_in in Hx as [Hx|[]]; auto. }
      split; [apply sorted_ins_all; auto; apply sorted_nil|].
      split; [intros x y Hx Hy; apply (ord_disj_all _ X2); auto|].
      split; [|intros x Hx; apply Pc; auto].
      intros v. rewrite cover_ins_all by (auto; apply sorted_nil). rewrite <- X1. split; auto.
      intros [|(x & [] & _)]; auto.
Qed.

(** loc_network_exclude_list *)
Lemma wsum_ins n l : wsum (ins n l) <= blk (n_prefix n) + wsum l.
Proof.
  induction l as [|a l IH]; cbn [ins]; [cbn [wsum fold_right]; lia|].
  destruct (K n <? K a); [cbn [wsum fold_right]; lia|]. destruct (K n =? K a); [lia|]. cbn [wsum fold_right].
  fold (wsum (ins n l)). fold (wsum l). lia.
Qed.

Lemma wsum_ins_all ns : forall l, wsum (ins_all l ns) <= wsum ns + wsum l.
Proof.
  induction ns as [|n ns IH]; intros l; [change (wsum l <= 0 + wsum l); lia|]. rewrite ins_all_cons.
  specialize (IH (ins n l)). pose proof (wsum_ins n l). change (wsum (n :: ns)) with (blk (n_prefix n) + wsum ns). lia.
Qed.

Section ExcludeList.
Variable ex : nlist.
Variable lex : list network.
Hypothesis Rex : repr ex lex.
Hypothesis Sex : sorted lex.
Variable n0 : network.
Hypothesis W0 : net_wf n0.
Hypothesis NoBad : forall e, In e lex -> strict n0 e -> ~ exclude_bad n0 e.

Definition nthe (i : nat) : network := nth i lex dnet.

Lemma nthe_in i : (i < length lex)%nat -> In (nthe i) lex.
Proof. apply nth_In. Qed.

Lemma nthe_wf i : (i < length lex)%nat -> net_wf (nthe i).
Proof. intros H. apply (sorted_wf lex); auto. now apply nthe_in. Qed.

Lemma in_nthe e : In e lex -> exists i, (i < length lex)%nat /\ nthe i = e.
Proof. intros H. destruct (In_nth lex e dnet H) as (i & Hi & E). exists i. auto. Qed.

Lemma read_ex i : (i < length lex)%nat -> read_elem (slots ex) i = Ok (nthe i).
Proof. intros H. destruct Rex as [_ [rest ->]]. now apply read_elem_app. Qed.

Record good (x : network) : Prop := {
  g_wf : net_wf x;
  g_lo : lo n0 <= lo x;
  g_hi : hi x <= hi n0;
  g_long : (n_prefix n0 < n_prefix x)%nat;
  g_attr : attr_eq x n0;
  g_parent : exists e, In e lex /\ lo x / blk (n_prefix x - 1) = lo e / blk (n_prefix x - 1)
}.

Definition clear_of (x : network) : Prop := forall e, In e lex -> disj x e.

Lemma good_piece x e y : good x -> In e lex -> piece x e y -> good y.
Proof.
  intros [W L H P A Q] Hx [W' L' H' P' D' Q' A']. constructor; auto; try lia.
  - eapply attr_eq_trans; eauto.
  - exists e. split; auto.
Qed.

Lemma good_piece0 e y : In e lex -> piece n0 e y -> good y.
Proof. intros Hx [W' L' H' P' D' Q' A']. constructor; auto; try lia. exists e. auto. Qed.

Lemma K_lo x y : net_wf x -> net_wf y -> K x < K y -> lo x <= lo y.
Proof. intros Wx Wy. unfold K. pose proof (w_prefix x Wx). pose proof (w_prefix y Wy). lia. Qed.

Lemma no_overlap_disj x y : net_wf x -> net_wf y -> overlaps x y = false -> disj x y.
Proof.
  intros Wx Wy O. destruct (N.lt_ge_cases (hi x) (lo y)); [left; auto|].
  destruct (N.lt_ge_cases (hi y) (lo x)); [right; auto|]. exfalso.
  pose proof (lo_le_hi x Wx). pose proof (lo_le_hi y Wy).
  assert (overlaps x y = true); [|congruence]. apply overlaps_iff; auto.
  exists (N.max (lo x) (lo y)). unfold inb. lia.
Qed.

Lemma exclude_check_spec n tc l : good n -> repr tc l -> sorted l -> forall k i sm,
  (i + k = length lex)%nat -> (sm <= i)%nat -> (forall j, (j < i)%nat -> hi (nthe j) < lo n) ->
  exists passed tc' sm', exclude_check ex tc n sm i k = Ok (passed, tc', sm') /\
    (sm' <= length lex)%nat /\ (forall j, (j < sm')%nat -> hi (nthe j) < lo n) /\
    ((passed = true /\ tc' = tc /\ clear_of n) \/
     (passed = false /\ tc' = tc /\ exists e, In e lex /\ lo e <= lo n /\ hi n <= hi e) \/
     (passed = false /\ exists e news, In e lex /\ strict n e /\ repr tc' (ins_all l news) /\
        (forall x, In x news -> piece n e x) /\ wsum news < blk (n_prefix n) /\ excluded n e news)).
Proof.
  intros G R So. pose proof (g_wf n G) as Wn. induction k as [|k IH]; intros i sm Hi Hsm Hlt; cbn [exclude_check].
  - exists true, tc, sm. split; auto. split; [lia|]. split; [intros; apply Hlt; lia|].
    left. split; auto. split; auto. intros e He. apply in_nthe in He as (j & Hj & <-).
    right. apply Hlt. lia.
  - assert (Li : (i < length lex)%nat) by lia. pose proof (nthe_wf i Li) as We. pose proof (nthe_in i Li) as Ie.
    rewrite (read_ex i Li). cbn [bind]. set (e := nthe i) in *.
    destruct (is_subnet e n) eqn:E1.
    { exists false, tc, sm. split; auto. split; [lia|]. split; [intros; apply Hlt; lia|].
      right. left. split; auto. split; auto. exists e. split; auto. apply is_subnet_iff in E1; auto. }
    destruct (overlaps e n) eqn:E2.
    { rewrite nest_or_disjoint in E2 by auto. rewrite E1 in E2. cbn [orb] in E2.
      assert (St : strict n e).
      { apply not_strict_cases; auto. rewrite network_cmp_0 by auto.
        destruct (N.eqb_spec (K n) (K e)) as [Q|Q]; auto. exfalso. apply K_eq in Q as [Q1 Q2]; auto.
        assert (is_subnet e n = true); [|congruence]. apply is_subnet_iff; auto.
        rewrite (hi_lo n Wn), (hi_lo e We), Q1, Q2. lia. }
      destruct (exclude_to_list_spec n e tc l Wn We R So)
        as [[X _]|(_ & L' & news & r & E & R' & Pc & Ws & X)]; [contradiction|].
      rewrite E. cbn [bind]. exists false, L', sm. split; auto. split; [lia|]. split; [intros; apply Hlt; lia|].
      right. right. split; auto. exists e, news. split; auto. split; auto. split; auto. split; auto. split; auto.
      destruct X as [[X _]|(_ & _ & X)]; auto. exfalso.
      assert (S0 : strict n0 e).
      { destruct G as [_ G1 G2 G3 _ _]. destruct St as (T1 & T2 & T3). split; [lia|]. split; lia. }
      apply (NoBad e Ie S0). apply (exclude_bad_mono n0 n); auto. pose proof (g_long n G). lia. }
    assert (D : disj e n) by (apply no_overlap_disj; auto).
    pose proof (lo_le_hi n Wn) as Ln. pose proof (lo_le_hi e We) as Le.
    rewrite network_cmp_pos, network_cmp_neg by auto.
    destruct (N.ltb_spec (K n) (K e)) as [Q|Q].
    + exists true, tc, sm. split; auto. split; [lia|]. split; [intros; apply Hlt; lia|].
      left. split; auto. split; auto. intros f Hf. apply in_nthe in Hf as (j & Hj & <-).
      pose proof (K_lo n e Wn We Q). assert (Dn : hi n < lo e) by (unfold disj in D; lia).
      destruct (Nat.lt_trichotomy j i) as [Lj|[->|Lj]].
      * right. now apply Hlt.
      * left. exact Dn.
      * left. assert (K e < K (nthe j)) by (apply sorted_nth; auto).
        assert (lo e <= lo (nthe j)) by (apply K_lo; auto; now apply nthe_wf). lia.
    + assert (De : hi e < lo n).
      { destruct D as [D|D]; auto. exfalso.
        assert (lo n < lo e) by lia. unfold K in Q. pose proof (w_prefix n Wn). lia. }
      assert (Q2 : K e <? K n = true).
      { unfold K. pose proof (w_prefix e We). lia. }
      rewrite Q2. apply IH; [lia|lia|]. intros j Hj. destruct (Nat.eq_dec j i) as [->|]; auto. apply Hlt. lia.
Qed.

Definition covers (l res : list network) : Prop :=
  forall v, inb n0 v -> ~ cover lex v -> cover l v \/ cover res v.

Lemma exclude_loop_spec : forall w tc l sub res sm,
  wsum l <= w -> repr tc l -> sorted l -> repr sub res -> sorted res ->
  (forall x, In x l -> good x) -> (forall x, In x res -> good x /\ clear_of x) ->
  covers l res -> (sm <= length lex)%nat -> (forall j x, (j < sm)%nat -> In x l -> hi (nthe j) < lo x) ->
  exists f0, forall f, (f0 <= f)%nat -> exists R res', exclude_loop ex tc sub sm f = Ok R /\ repr R res' /\
    sorted res' /\ (forall x, In x res' -> good x /\ clear_of x) /\ covers [] res'.
Proof.
  intros w. induction w as [w IH] using (well_founded_induction N.lt_wf_0).
  intros tc l sub res sm Hw R So Rs Ss Gl Gr Cv Hsm Hlt.
  destruct (list_pop_first_spec tc l R) as [[-> E]|(l' & n & -> & tc1 & E & R1)].
  - exists 0%nat. intros f _. exists sub, res.
    assert (Em : list_empty tc = true) by (unfold list_empty; destruct R as [-> _]; reflexivity).
    split; [destruct f; cbn [exclude_loop]; now rewrite Em|]. auto.
  - assert (Em : list_empty tc = false) by (unfold list_empty; destruct R as [-> _]; reflexivity).
    pose proof (Gl n (or_introl eq_refl)) as G. pose proof (g_wf n G) as Wn.
    assert (Wd : wsum (n :: l') = blk (n_prefix n) + wsum l') by reflexivity.
    pose proof (blk_pos (n_prefix n)) as Bp.
    apply sorted_cons in So as (_ & Kl & Sl).
    assert (Lol : forall x, In x l' -> lo n <= lo x).
    { intros x Hx. apply K_lo; auto. apply (sorted_wf l'); auto. }
    destruct (mem n lex) eqn:Mn.
    + destruct (IH (wsum l')) with (tc := tc1) (l := l') (sub := sub) (res := res) (sm := sm) as (f0 & Hf); auto.
      { lia. } { lia. } { intros x Hx. apply Gl. cbn; auto. }
      { intros v I0 Nc. destruct (Cv v I0 Nc) as [(x & [<-|Hx] & I)|C]; auto.
        - exfalso. apply Nc. apply mem_iff in Mn as (e & He & Ke). exists e. split; auto.
          assert (We := sorted_wf lex e Sex He). apply K_eq in Ke as [K1 K2]; auto.
          unfold inb in *. rewrite (hi_lo e We), (hi_lo n Wn) in *. rewrite K1, K2. auto.
        - left. exists x; auto. }
      { intros j x Hj Hx. apply Hlt; cbn; auto. }
      exists (S f0). intros f Hle. destruct f as [|f]; [lia|]. cbn [exclude_loop]. rewrite Em, E. cbn [bind].
      rewrite (list_contains_spec ex lex n Rex Sex Wn), Mn. cbn [bind]. apply Hf. lia.
    + destruct (exclude_check_spec n tc1 l' G R1 Sl (length lex - sm) sm sm) as (passed & tc' & sm' & Ec & Hs' & Hlt' & X).
      { lia. } { lia. } { intros j Hj. apply Hlt; cbn; auto. }
      assert (Ns : nsize ex = length lex) by apply Rex.
      assert (Step : forall f, exclude_loop ex tc sub sm (S f) =
        do subnets <- (if passed then list_push sub n else Ok sub); exclude_loop ex tc' subnets sm' f).
      { intros f. cbn [exclude_loop]. rewrite Em, E. cbn [bind].
        rewrite (list_contains_spec ex lex n Rex Sex Wn), Mn. cbn [bind]. rewrite Ns, Ec. reflexivity. }
      destruct X as [(-> & -> & Cl)|[(-> & -> & e & He & B1 & B2)|(-> & e & news & He & St & R' & Pc & Ws & Xc & _)]].
      * destruct (list_push_spec sub res n Rs Ss Wn) as (sub' & Ep & Rs').
        destruct (IH (wsum l')) with (tc := tc1) (l := l') (sub := sub') (res := ins n res) (sm := sm') as (f0 & Hf); auto.
        { lia. } { lia. } { now apply sorted_ins. } { intros x Hx. apply Gl. cbn; auto. }
        { intros x Hx. apply ins_in in Hx as [->|Hx]; auto. }
        { intros v I0 Nc. rewrite cover_ins by auto. destruct (Cv v I0 Nc) as [(x & [<-|Hx] & I)|C]; auto.
          left. exists x; auto. }
        { intros j x Hj Hx. specialize (Hlt' j Hj). specialize (Lol x Hx). lia. }
        exists (S f0). intros f Hle. destruct f as [|f]; [lia|]. rewrite Step, Ep. cbn [bind]. apply Hf. lia.
      * destruct (IH (wsum l')) with (tc := tc1) (l := l') (sub := sub) (res := res) (sm := sm') as (f0 & Hf); auto.
        { lia. } { lia. } { intros x Hx. apply Gl. cbn; auto. }
        { intros v I0 Nc. destruct (Cv v I0 Nc) as [(x & [<-|Hx] & I)|C]; auto.
          - exfalso. apply Nc. exists e. split; auto. unfold inb in *. lia.
          - left. exists x; auto. }
        { intros j x Hj Hx. specialize (Hlt' j Hj). specialize (Lol x Hx). lia. }
        exists (S f0). intros f Hle. destruct f as [|f]; [lia|]. rewrite Step. cbn [bind]. apply Hf. lia.
      * assert (Fn : Forall net_wf news) by (apply Forall_forall; intros x Hx; apply (Pc x Hx)).
        pose proof (wsum_ins_all news l') as Wi.
        destruct (IH (wsum (ins_all l' news))) with (tc := tc') (l := ins_all l' news) (sub := sub) (res := res) (sm := sm') as (f0 & Hf); auto.
        { lia. } { lia. } { now apply sorted_ins_all. }
        { intros x Hx. apply ins_all_in in Hx as [Hx|Hx]; [|apply Gl; cbn; auto]. eapply good_piece; eauto. }
        { intros v I0 Nc. rewrite cover_ins_all by auto. destruct (Cv v I0 Nc) as [(x & [<-|Hx] & I)|C]; auto.
          - left. left. apply Xc. split; auto. intros Ie. apply Nc. exists e; auto.
          - left. right. exists x; auto. }
        { intros j x Hj Hx. specialize (Hlt' j Hj). apply ins_all_in in Hx as [Hx|Hx].
          - pose proof (p_lo _ _ _ (Pc x Hx)). lia.
          - specialize (Lol x Hx). lia. }
        exists (S f0). intros f Hle. destruct f as [|f]; [lia|]. rewrite Step. cbn [bind]. apply Hf. lia.
Qed.

Lemma exclude_fill_spec : forall k i tc l, (i + k = length lex)%nat -> repr tc l -> sorted l ->
  (forall x, In x l -> good x) ->
  ((l = [] /\ forall j, (j < i)%nat -> ~ strict n0 (nthe j)) \/ covers l []) ->
  exists tc' l', exclude_fill n0 ex tc i k = Ok tc' /\ repr tc' l' /\ sorted l' /\ (forall x, In x l' -> good x) /\
  ((l' = [] /\ forall j, (j < length lex)%nat -> ~ strict n0 (nthe j)) \/ covers l' []).
Proof.
  induction k as [|k IH]; intros i tc l Hi R So G C; cbn [exclude_fill].
  - exists tc, l. split; auto. split; auto. split; auto. split; auto.
    replace (length lex) with i by lia. auto.
  - assert (Li : (i < length lex)%nat) by lia. pose proof (nthe_wf i Li) as We. pose proof (nthe_in i Li) as Ie.
    rewrite (read_ex i Li). cbn [bind]. set (e := nthe i) in *.
    rewrite (list_contains_spec tc l e R So We). cbn [bind].
    destruct (mem e l) eqn:M.
    { apply (IH (S i) tc l); auto; [lia|]. destruct C as [[-> _]|C]; auto. discriminate M. }
    destruct (exclude_to_list_spec n0 e tc l W0 We R So)
      as [[X Ex]|(St & L' & news & r & Ex & R' & Pc & Ws & X)]; rewrite Ex; cbn [bind].
    + cbn [Z.eqb]. apply (IH (S i) tc l); auto; [lia|]. destruct C as [[-> C]|C]; auto. left. split; auto.
      intros j Hj. destruct (Nat.eq_dec j i) as [->|]; auto. apply C. lia.
    + destruct X as [[X _]|(_ & -> & Xc & _)]; [exfalso; now apply (NoBad e)|]. cbn [Z.eqb].
      assert (Fn : Forall net_wf news) by (apply Forall_forall; intros x Hx; apply (Pc x Hx)).
      apply (IH (S i) L' (ins_all l news)); auto; [lia|now apply sorted_ins_all| |].
      * intros x Hx. apply ins_all_in in Hx as [Hx|Hx]; auto. eapply good_piece0; eauto.
      * right. intros v I0 Nc. rewrite cover_ins_all by auto. left. left. apply Xc. split; auto.
        intros I. apply Nc. exists e. auto.
Qed.

Lemma clear_good_disj l : sorted l -> (forall x, In x l -> good x /\ clear_of x) -> all_disj l.
Proof.
  intros So G. assert (Half : forall x y, In x l -> In y l -> x <> y -> (n_prefix x <= n_prefix y)%nat -> disj x y).
  { intros x y Hx Hy Ne P. destruct (G x Hx) as [Gx Cx]. destruct (G y Hy) as [Gy Cy].
    pose proof (g_wf x Gx) as Wx. pose proof (g_wf y Gy) as Wy.
    destruct (overlaps x y) eqn:O; [|now apply no_overlap_disj].
    exfalso. apply overlaps_iff in O as (v & I1 & I2); auto.
    destruct (Nat.eq_dec (n_prefix x) (n_prefix y)) as [Pe|Pe].
    - apply Ne. apply (sorted_inj l); auto. apply K_eq; auto. split; auto.
      rewrite (prefix_unique x v _ Wx I1 Pe). symmetry. now apply prefix_unique.
    - destruct (g_parent y Gy) as (e & He & Q). pose proof (w_prefix y Wy).
      assert (E : inb x (lo e)).
      { apply inb_iff; auto. apply (inb_iff x v) in I1; auto. rewrite <- I1.
        assert (I2' : lo y / blk (n_prefix y) = v / blk (n_prefix y)) by (apply (inb_iff y v) in I2; auto).
        apply (div_blk_mono (n_prefix x) (n_prefix y - 1)); [clear -P Pe; lia|clear -H; lia|]. rewrite <- Q.
        apply (div_blk_mono _ (n_prefix y)); auto. clear; lia. }
      pose proof (sorted_wf lex e Sex He) as We. pose proof (lo_le_hi e We).
      destruct (Cx e He) as [D|D]; unfold inb in E; lia. }
  intros x y Hx Hy Ne. destruct (Nat.le_ge_cases (n_prefix x) (n_prefix y)); [|apply disj_sym]; apply Half; auto.
Qed.

Lemma exclude_list_spec : (exists e, In e lex /\ strict n0 e) \/ (exists e, In e lex /\ lo e <= lo n0 /\ hi n0 <= hi e) ->
  exists f0, forall f, (f0 <= f)%nat -> exists R res, network_exclude_list n0 ex f = Ok R /\ repr R res /\
    sorted res /\ all_disj res /\ (forall x, In x res -> good x) /\
    (forall v, cover res v <-> inb n0 v /\ ~ cover lex v).
Proof.
  intros He. unfold network_exclude_list.
  destruct (exclude_fill_spec (nsize ex) 0 list_new []) as (tc & l & -> & R & So & G & C).
  { destruct Rex as [-> _]. lia. } { apply list_new_repr. } { apply sorted_nil. } { intros x []. }
  { left. split; auto. intros j Hj. lia. }
  cbn [bind].
  assert (C' : covers l []).
  { destruct C as [[-> C]|C]; auto. destruct He as [(e & He & St)|(e & He & B1 & B2)].
    - exfalso. apply in_nthe in He as (j & Hj & <-). now apply (C j).
    - intros v I Nc. exfalso. apply Nc. exists e. split; auto. unfold inb in *. lia. }
  destruct (exclude_loop_spec (wsum l) tc l list_new [] 0) as (f0 & Hf); auto.
  { lia. } { apply list_new_repr. } { apply sorted_nil. } { intros x []. } { lia. } { intros j x Hj. lia. }
  exists f0. intros f Hle. destruct (Hf f Hle) as (R' & res & E & Rr & Sr & Gr & Cr).
  exists R', res. split; auto. split; auto. split; auto. split; [now apply clear_good_disj|].
  split; [intros x Hx; now apply Gr|]. intros v. split.
  - intros (x & Hx & I). destruct (Gr x Hx) as [Gx Cx]. pose proof (g_lo x Gx). pose proof (g_hi x Gx).
    split; [unfold inb in *; lia|]. intros (e & Hin & Ie). destruct (Cx e Hin) as [D|D]; unfold inb in *; lia.
  - intros [I Nc]. destruct (Cr v I Nc) as [(x & [] & _)|]; auto.
Qed.

(** when nothing in the list is a strict subnet, the result is empty *)
Lemma exclude_list_empty : (forall e, In e lex -> ~ strict n0 e) ->
  forall f, exists R, network_exclude_list n0 ex f = Ok R /\ repr R [].
Proof.
  intros Hn f. unfold network_exclude_list.
  assert (F : forall k i, (i + k = length lex)%nat -> exclude_fill n0 ex list_new i k = Ok list_new).
  { induction k as [|k IH]; intros i Hi; cbn [exclude_fill]; auto.
    assert (Li : (i < length lex)%nat) by lia. pose proof (nthe_wf i Li) as We. pose proof (nthe_in i Li) as Ie.
    rewrite (read_ex i Li). cbn [bind].
    rewrite (list_contains_spec list_new [] _ list_new_repr sorted_nil We). cbn [bind mem existsb].
    destruct (exclude_to_list_spec n0 (nthe i) list_new [] W0 We list_new_repr sorted_nil)
      as [[X ->]|(St & _)]; [|exfalso; now apply (Hn _ Ie)].
    cbn [bind Z.eqb]. apply IH. lia. }
  rewrite F by (destruct Rex as [-> _]; lia). cbn [bind]. exists list_new. split; [|apply list_new_repr].
  destruct f; reflexivity.
Qed.
End ExcludeList.
