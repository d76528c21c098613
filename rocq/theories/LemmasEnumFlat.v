(** Flattened enumeration *)
From Coq Require Import NArith ZArith List Bool Arith Lia ZifyBool ZifyNat ZifyN Sorting.Sorted.
From Verif Require Import Base LemmasBase ModelAddress LemmasAddress ModelCountryCode ModelNetwork LemmasNetwork ModelNetworkList
  LemmasNetworkList LemmasExclude ModelObjects ModelFile ModelDatabase ModelEnum SpecEnum LemmasEnum LemmasEnumSafe.
Import ListNotations.
Open Scope N_scope.

(** ** more fuel changes nothing *)
Lemma exclude_loop_mono f : forall ex tc sub sm R, exclude_loop ex tc sub sm f = Ok R -> forall g, (f <= g)%nat -> exclude_loop ex tc sub sm g = Ok R.
Proof.
  induction f as [|f IH]; intros ex tc sub sm R H g L.
  - cbn [exclude_loop] in H. destruct g; cbn [exclude_loop]; destruct (list_empty tc); try discriminate; exact H.
  - destruct g as [|g]; [lia|]. cbn [exclude_loop] in *. destruct (list_empty tc); [exact H|].
    destruct (list_pop_first tc) as [[n tc']| | |]; try discriminate. cbn [bind] in *. destruct n as [n|]; [|exact H].
    destruct (list_contains ex n) as [[|]| | |]; try discriminate; cbn [bind] in *; [eapply IH; [exact H|lia]|].
    destruct (exclude_check ex tc' n sm sm (nsize ex - sm)) as [[[p tc''] sm']| | |]; try discriminate. cbn [bind] in *.
    destruct (if (p : bool) then list_push sub n else Ok sub) as [sub'| | |]; try discriminate. cbn [bind] in *.
    eapply IH; [exact H|lia].
Qed.

Lemma exclude_list_mono n ex f R : network_exclude_list n ex f = Ok R -> forall g, (f <= g)%nat -> network_exclude_list n ex g = Ok R.
Proof.
  unfold network_exclude_list. destruct (exclude_fill n ex list_new 0 (nsize ex)); try discriminate. cbn [bind].
  apply exclude_loop_mono.
Qed.

Section Flat.
Variable beyond : nat -> option N.
Variable d : db.

Lemma search_mono (filter : bool) f : forall e r, search beyond d filter e f = Ok r -> forall g, (f <= g)%nat -> search beyond d filter e g = Ok r.
Proof.
  induction f as [|f IH]; intros e r H g L.
  - cbn [search] in H. destruct g; cbn [search]; destruct (en_nodes e) as [|[[? ?] ?] ?]; try discriminate; exact H.
  - destruct g as [|g]; [lia|]. rewrite search_step in *. destruct (step0 beyond d e) as [[e1 v]| | |]; try discriminate. cbn [bind] in *.
    destruct v; [eapply IH; [exact H|lia]| |exact H].
    destruct (if filter then match_network e1 x else Ok true) as [[|]| | |]; try discriminate; cbn [bind] in *; [exact H|eapply IH; [exact H|lia]].
Qed.

(** ** the search does not look at the lists *)
Definition relist {A} s t (r : outcome (enum * A)) : outcome (enum * A) :=
  match r with Ok (e, v) => Ok (with_lists e s t, v) | Err c => Err c | UB => UB | Fuel => Fuel end.
Lemma push_lists e s t off i k : push_node d (with_lists e s t) off i k = relist s t (push_node d e off i k).
Proof.
  unfold push_node. cbn [with_lists en_nodes]. destruct (off =? 0); [reflexivity|]. destruct (Nat.leb _ _); [reflexivity|].
  destruct (_ <=? _); [reflexivity|]. destruct (Nat.leb _ _); reflexivity.
Qed.
Lemma step0_lists e s t : step0 beyond d (with_lists e s t) = relist s t (step0 beyond d e).
Proof.
  unfold step0. cbn [with_lists en_nodes en_visited en_addr]. destruct (en_nodes e) as [|[[off i] k] rest]; [reflexivity|].
  destruct (_ <=? _); [reflexivity|]. destruct (existsb _ _); [reflexivity|].
  destruct (set_bit _ _ _ _) as [a| | |]; try reflexivity. cbn [bind].
  destruct (fetch_node d off) as [[n|]| | |]; try reflexivity. cbn [bind].
  match goal with |- context [push_node d ?e1 (snd (fst n)) 1 (S k)] =>
    change e1 with (with_lists (with_search e a ((off, i, k) :: rest) (off :: en_visited e)) s t) end.
  rewrite push_lists. match goal with |- context [relist s t ?p] => destruct p as [[e1 r1]| | |] end; try reflexivity. cbn [relist bind].
  destruct (negb (r1 =? 0)%Z); [reflexivity|]. rewrite push_lists.
  destruct (push_node d e1 (fst (fst n)) 0 (S k)) as [[e2 r2]| | |]; try reflexivity. cbn [relist bind].
  destruct (negb (r2 =? 0)%Z); [reflexivity|]. destruct (is_leaf n); [|reflexivity].
  cbn [with_lists en_addr]. destruct (fetch_network d (en_addr e2) (N.of_nat k) (snd n)) as [[x r3]| | |]; try reflexivity. cbn [bind].
  destruct (negb (r3 =? 0)%Z); [reflexivity|]. destruct x; reflexivity.
Qed.
Lemma steps_lists s t n e l e' : steps beyond d n e l e' -> steps beyond d n (with_lists e s t) l (with_lists e' s t).
Proof.
  induction 1 as [|n e e1 l e' H _ IH|n e e1 x l e' H _ IH]; [constructor| |].
  - eapply steps_quiet; [rewrite step0_lists, H; reflexivity|exact IH].
  - eapply steps_found; [rewrite step0_lists, H; reflexivity|exact IH].
Qed.

(** ** what is still to come *)
Variable e0 : enum.
Definition keep (x : network) : bool := match match_network e0 x with Ok b => b | _ => false end.
Lemma keep_ok x : match_network e0 x = Ok (keep x).
Proof. unfold keep. destruct (match_defined e0 x) as [b ->]. reflexivity. Qed.
Lemma keep_attr x y : attr_eq x y -> keep x = keep y.
Proof.
  intros (F & A & G & C). unfold keep, match_network. rewrite F.
  assert (E1 : forall l, country_list_contains_code l (Some (get_country_code x)) = country_list_contains_code l (Some (get_country_code y))).
  { intros l. unfold get_country_code. now rewrite C. }
  assert (E2 : forall fl, has_flag x fl = has_flag y fl) by (intros fl; unfold has_flag; now rewrite G).
  rewrite A, !E2. destruct (en_countries e0); [rewrite E1|]; reflexivity.
Qed.

Definition same_cfg (e : enum) : Prop := exists a n v s t, e = with_lists (with_search e0 a n v) s t.
Lemma cfg_match e x : same_cfg e -> match_network e x = Ok (keep x).
Proof. intros (a & n & v & s & t & ->). rewrite <- keep_ok. reflexivity. Qed.
Lemma cfg_lists e s t : same_cfg e -> same_cfg (with_lists e s t).
Proof. intros (a & n & v & s' & t' & ->). now exists a, n, v, s, t. Qed.
Lemma cfg_search e a n v : same_cfg e -> same_cfg (with_search e a n v).
Proof. intros (a' & n' & v' & s & t & ->). now exists a, n, v, s, t. Qed.
Lemma cfg_steps n e l e' : steps beyond d n e l e' -> same_cfg e -> same_cfg e'.
Proof. intros S C. apply steps_same in S as (a & nn & v & ->). now apply cfg_search. Qed.

(** The list of the enumerator holds [S], the search will find [R]. *)
Definition pend (e : enum) (sub : list network) (Sl Rl : list network) : Prop :=
  same_cfg e /\ repr (en_stack e) Sl /\ repr (en_subnets e) sub /\
  exists n e', steps beyond d n e Rl e' /\ en_nodes e' = [].

Lemma pend_lists e sub Sl Rl s t Sl' sub' : pend e sub Sl Rl -> repr s Sl' -> repr t sub' -> pend (with_lists e s t) sub' Sl' Rl.
Proof.
  intros (C & _ & _ & n & e' & H & En) Hs Ht. split; [now apply cfg_lists|]. split; auto. split; auto.
  exists n, (with_lists e' s t). split; [now apply steps_lists|exact En].
Qed.

Definition kept (filter : bool) (x : network) : bool := if filter then keep x else true.

Lemma search_call (filter : bool) e sub Sl : forall Rl, pend e sub Sl Rl -> exists f0 e1,
  match List.filter (kept filter) Rl with
  | [] => (forall fuel, (f0 <= fuel)%nat -> search beyond d filter e fuel = Ok (e1, None, 0%Z)) /\ pend e1 sub Sl []
  | x :: _ => exists skip rest, Rl = skip ++ x :: rest /\ (forall y, In y skip -> kept filter y = false) /\
      (forall fuel, (f0 <= fuel)%nat -> search beyond d filter e fuel = Ok (e1, Some x, 0%Z)) /\ pend e1 sub Sl rest
  end.
Proof.
  intros Rl (C & Hs & Ht & n & e' & H & En). revert C Hs Ht. revert En.
  induction H as [e|n e e1 l e' H S0 IH|n e e1 x l e' H S0 IH]; intros En C Hs Ht.
  - exists 0%nat, e. cbn [List.filter]. split.
    + intros [|fuel] _; cbn [search]; rewrite En; reflexivity.
    + split; auto. split; auto. split; auto. exists 0%nat, e. split; [constructor|auto].
  - assert (C1 : same_cfg e1) by (apply step0_same in H as (? & ? & ? & ->); now apply cfg_search).
    pose proof (same_stack _ _ (step0_same _ _ _ _ _ H)) as [E1 E2]. rewrite <- E1 in Hs. rewrite <- E2 in Ht.
    destruct (IH En C1 Hs Ht) as (f0 & e2 & X). exists (S f0), e2. destruct (List.filter (kept filter) l) as [|x r].
    + destruct X as [X P]. split; auto. intros [|fuel] L; [lia|]. rewrite search_step, H. cbn [bind]. apply X. lia.
    + destruct X as (skip & rest & El & Sk & X & P). exists skip, rest. split; auto. split; auto. split; auto.
      intros [|fuel] L; [lia|]. rewrite search_step, H. cbn [bind]. apply X. lia.
  - assert (C1 : same_cfg e1) by (apply step0_same in H as (? & ? & ? & ->); now apply cfg_search).
    pose proof (same_stack _ _ (step0_same _ _ _ _ _ H)) as [E1 E2]. rewrite <- E1 in Hs. rewrite <- E2 in Ht.
    assert (Kx : (if filter then match_network e1 x else Ok true) = Ok (kept filter x)) by (destruct filter; [now apply cfg_match|reflexivity]).
    cbn [List.filter]. destruct (kept filter x) eqn:Kp.
    + exists 1%nat, e1. exists [], l. split; [reflexivity|]. split; [intros y []|]. split.
      * intros [|fuel] L; [lia|]. rewrite search_step, H. cbn [bind]. rewrite Kx. reflexivity.
      * split; auto. split; auto. split; auto. eauto.
    + destruct (IH En C1 Hs Ht) as (f0 & e2 & X). exists (S f0), e2. destruct (List.filter (kept filter) l) as [|y r].
      * destruct X as [X P]. split; auto. intros [|fuel] L; [lia|]. rewrite search_step, H. cbn [bind]. rewrite Kx. apply X. lia.
      * destruct X as (skip & rest & -> & Sk & X & P). exists (x :: skip), rest. split; [reflexivity|].
        split; [intros z [<-|Iz]; auto|]. split; auto.
        intros [|fuel] L; [lia|]. rewrite search_step, H. cbn [bind]. rewrite Kx. apply X. lia.
Qed.

Lemma inner_call (filter : bool) Rl sub : forall Sl e, pend e sub Sl Rl -> exists f0 e1,
  match List.filter (kept filter) (Sl ++ Rl) with
  | [] => (forall fuel, (f0 <= fuel)%nat -> next_inner beyond d filter e fuel = Ok (e1, None, 0%Z)) /\ pend e1 sub [] []
  | x :: _ => exists skip S1 R1, Sl ++ Rl = skip ++ x :: S1 ++ R1 /\ (forall y, In y skip -> kept filter y = false) /\
      (forall fuel, (f0 <= fuel)%nat -> next_inner beyond d filter e fuel = Ok (e1, Some x, 0%Z)) /\ pend e1 sub S1 R1
  end.
Proof.
  assert (X : forall Sl e k, pend e sub Sl Rl -> (length Sl <= k)%nat -> exists f0 e1,
    match List.filter (kept filter) (Sl ++ Rl) with
    | [] => (forall fuel, (f0 <= fuel)%nat -> (do (e, x) <- from_stack filter e k;
         match x with Some x => Ok (e, Some x, 0%Z) | None => search beyond d filter e fuel end) = Ok (e1, None, 0%Z)) /\ pend e1 sub [] []
    | x :: _ => exists skip S1 R1, Sl ++ Rl = skip ++ x :: S1 ++ R1 /\ (forall y, In y skip -> kept filter y = false) /\
        (forall fuel, (f0 <= fuel)%nat -> (do (e, x) <- from_stack filter e k;
         match x with Some x => Ok (e, Some x, 0%Z) | None => search beyond d filter e fuel end) = Ok (e1, Some x, 0%Z)) /\ pend e1 sub S1 R1
    end).
  { induction Sl as [|y Sl IH]; intros e k P Lk.
    - destruct (list_pop_first_spec _ _ (proj1 (proj2 P))) as [[_ Pp]|(l' & n & Q & _)]; [|discriminate].
      assert (P' : pend (with_lists e (en_stack e) (en_subnets e)) sub [] Rl) by (eapply pend_lists; [exact P|apply P|apply P]).
      destruct (search_call filter _ sub [] Rl P') as (f0 & e1 & X). exists f0, e1. cbn [app].
      assert (Fs : from_stack filter e k = Ok (with_lists e (en_stack e) (en_subnets e), None))
        by (destruct k; cbn [from_stack]; rewrite Pp; reflexivity).
      rewrite Fs. cbn [bind]. destruct (List.filter (kept filter) Rl) as [|x r]; [exact X|].
      destruct X as (skip & rest & -> & Sk & X & P1). exists skip, [], rest. cbn [app]. auto.
    - destruct k as [|k]; [cbn [length] in Lk; lia|].
      destruct (list_pop_first_spec _ _ (proj1 (proj2 P))) as [[Q _]|(l' & n & Q & L' & Pp & Rp)]; [discriminate|]. injection Q as <- <-.
      assert (P' : pend (with_lists e L' (en_subnets e)) sub Sl Rl) by (eapply pend_lists; [exact P|exact Rp|apply P]).
      assert (Kx : (if filter then match_network (with_lists e L' (en_subnets e)) y else Ok true) = Ok (kept filter y))
        by (destruct filter; [apply cfg_match, P'|reflexivity]).
      cbn [app List.filter from_stack]. rewrite Pp. cbn [bind]. rewrite Kx. cbn [bind]. destruct (kept filter y) eqn:Ky.
      + exists 0%nat, (with_lists e L' (en_subnets e)), [], Sl, Rl. cbn [app bind]. split; auto. split; [intros z []|]. split; auto.
      + destruct (IH _ k P' ltac:(cbn [length] in Lk; lia)) as (f0 & e1 & X). exists f0, e1.
        destruct (List.filter (kept filter) (Sl ++ Rl)) as [|x r]; [exact X|].
        destruct X as (skip & S1 & R1 & E & Sk & X & P1). exists (y :: skip), S1, R1. rewrite E. split; [reflexivity|].
        split; [intros z [<-|Iz]; auto|]. auto. }
  intros Sl e P. unfold next_inner. apply X; auto. destruct P as (_ & [Es _] & _). lia.
Qed.

(** ** collecting the subnets *)
Lemma ins_last y l : (forall z, In z l -> K z < K y) -> ins y l = l ++ [y].
Proof.
  induction l as [|z l IH]; intros H; [reflexivity|]. cbn [ins app]. pose proof (H z (or_introl eq_refl)).
  replace (K y <? K z) with false by lia. replace (K y =? K z) with false by lia. rewrite IH; auto. intros w I. apply H. now right.
Qed.
Lemma ins_first y l : (forall z, In z l -> K y < K z) -> ins y l = y :: l.
Proof. destruct l as [|z l]; intros H; [reflexivity|]. cbn [ins]. pose proof (H z (or_introl eq_refl)). now replace (K y <? K z) with true by lia. Qed.

Lemma all_kept l : List.filter (kept false) l = l.
Proof. induction l as [|x l IH]; [reflexivity|]. cbn. now rewrite IH. Qed.

Lemma collect_spec x : net_wf x -> forall m Sl Rl e sub, (length (Sl ++ Rl) <= m)%nat -> pend e sub Sl Rl -> sorted (Sl ++ Rl) -> sorted sub ->
  (forall z y, In z sub -> In y (Sl ++ Rl) -> K z < K y) ->
  exists subs S1 R1 f0 e1, Sl ++ Rl = subs ++ S1 ++ R1 /\ (forall y, In y subs -> is_subnet x y = true) /\
    match S1 ++ R1 with [] => True | y :: _ => is_subnet x y = false end /\
    (forall fuel k, (f0 <= fuel)%nat -> (length subs < k)%nat -> collect beyond d x fuel e k = Ok (e1, 0%Z)) /\
    pend e1 (sub ++ subs) S1 R1.
Proof.
  intros Wx m. induction m as [|m IH]; intros Sl Rl e sub Lm P Sp Ss Lt.
  - destruct (inner_call false Rl sub Sl e P) as (f0 & e1 & X). rewrite all_kept in X.
    destruct (Sl ++ Rl) as [|y q] eqn:E; [|cbn [length] in Lm; lia]. destruct X as [X P1].
    exists [], [], [], f0, e1. split; [reflexivity|]. split; [intros y []|]. split; [exact I|]. split; [|now rewrite app_nil_r].
    intros fuel [|k] Lf Lk; [lia|]. cbn [collect]. rewrite X by auto. reflexivity.
  - destruct (inner_call false Rl sub Sl e P) as (f0 & e1 & X). rewrite all_kept in X.
    destruct (Sl ++ Rl) as [|y q] eqn:E.
    + destruct X as [X P1]. exists [], [], [], f0, e1. split; [reflexivity|]. split; [intros y []|]. split; [exact I|]. split; [|now rewrite app_nil_r].
      intros fuel [|k] Lf Lk; [lia|]. cbn [collect]. rewrite X by auto. reflexivity.
    + destruct X as (skip & S1 & R1 & Eq & Sk & X & P1). destruct skip as [|z skip]; [|exfalso; specialize (Sk z (or_introl eq_refl)); discriminate].
      cbn [app] in Eq. injection Eq as ->. apply sorted_cons in Sp as (Wy & Fy & Sq).
      destruct (is_subnet x y) eqn:Sub.
      * destruct (list_push_spec (en_subnets e1) sub y (proj1 (proj2 (proj2 P1))) Ss Wy) as (t & Et & Rt).
        rewrite ins_last in Rt by (intros z Iz; apply Lt; [auto|now left]).
        assert (P2 : pend (with_lists e1 (en_stack e1) t) (sub ++ [y]) S1 R1) by (eapply pend_lists; [exact P1|apply P1|exact Rt]).
        destruct (IH S1 R1 _ (sub ++ [y]) ltac:(cbn [length] in Lm; lia) P2 Sq) as (subs & S2 & R2 & f1 & e2 & E2 & Hs & Hd & Hc & P3).
        { apply sorted_app. split; auto. split; [apply sorted_cons; split; auto; split; [intros z []|apply sorted_nil]|].
          intros z w Iz [<-|[]]. apply Lt; auto. now left. }
        { intros z w Iz Iw. apply in_app_iff in Iz as [Iz|[<-|[]]]; [apply Lt; auto; now right|auto]. }
        exists (y :: subs), S2, R2, (Nat.max f0 f1), e2. rewrite E2. split; [reflexivity|]. split; [intros z [<-|Iz]; auto|].
        split; [exact Hd|]. split; [|rewrite <- app_assoc in P3; exact P3].
        intros fuel [|k] Lf Lk; [lia|]. cbn [collect]. rewrite X by lia. cbn [bind Z.eqb negb]. rewrite Sub, Et. cbn [bind].
        apply Hc; [lia|]. cbn [length] in Lk. lia.
      * assert (S1s : sorted S1) by (apply sorted_app in Sq; apply Sq).
        destruct (list_push_spec (en_stack e1) S1 y (proj1 (proj2 P1)) S1s Wy) as (s & Es & Rs).
        rewrite ins_first in Rs by (intros z Iz; apply Fy, in_app_iff; now left).
        assert (P2 : pend (with_lists e1 s (en_subnets e1)) sub (y :: S1) R1) by (eapply pend_lists; [exact P1|exact Rs|apply P1]).
        exists [], (y :: S1), R1, f0, (with_lists e1 s (en_subnets e1)). split; [reflexivity|]. split; [intros z []|].
        split; [exact Sub|]. split; [|now rewrite app_nil_r].
        intros fuel [|k] Lf Lk; [lia|]. cbn [collect]. rewrite X by lia. cbn [bind Z.eqb negb]. rewrite Sub, Es. reflexivity.
Qed.
End Flat.

(** ** the most specific network *)
Lemma lo_mono x y : net_wf x -> net_wf y -> K x < K y -> lo x <= lo y.
Proof. intros Wx Wy. unfold K. pose proof (w_prefix x Wx). pose proof (w_prefix y Wy). lia. Qed.
Definition ms (p : list network) (v : N) (z : network) : Prop :=
  In z p /\ inb z v /\ forall y, In y p -> inb y v -> (n_prefix y <= n_prefix z)%nat.

Lemma after_first x y q : net_wf x -> sorted (y :: q) -> K x < K y -> is_subnet x y = false ->
  forall z, In z (y :: q) -> hi x < lo z.
Proof.
  intros Wx S L Ns z Iz. pose proof S as S0. apply sorted_cons in S as (Wy & Fy & Sq).
  assert (hi x < lo y).
  { destruct (N.lt_ge_cases (hi x) (lo y)) as [|G]; auto. exfalso.
    pose proof (lo_mono x y Wx Wy L) as Lo. pose proof (lo_le_hi y Wy).
    assert (Ix : inb x (lo y)) by (unfold inb; lia). assert (Iy : inb y (lo y)) by (unfold inb; lia).
    destruct (Nat.le_gt_cases (n_prefix x) (n_prefix y)) as [Hp|Hp].
    - destruct (nest_bounds x y (lo y) Wx Wy Ix Iy Hp) as [B1 B2].
      assert (is_subnet x y = true) by (apply is_subnet_iff; auto). congruence.
    - destruct (nest_bounds y x (lo y) Wy Wx Iy Ix ltac:(lia)) as [B1 B2]. assert (lo x = lo y) by lia. unfold K in L. lia. }
  destruct Iz as [<-|Iz]; auto. pose proof (lo_mono y z Wy (sorted_wf _ _ Sq Iz) (Fy z Iz)). lia.
Qed.

Lemma ms_skip skip p v z (keep : network -> bool) : sorted (skip ++ p) -> (forall y, In y skip -> keep y = false) ->
  (ms (skip ++ p) v z /\ keep z = true) <-> (ms p v z /\ keep z = true).
Proof.
  intros S Sk. split; intros [(I & V & M) Kz]; (split; [|exact Kz]).
  - apply in_app_iff in I as [I|I]; [rewrite (Sk z I) in Kz; discriminate|]. split; auto. split; auto.
    intros y Iy. apply M, in_app_iff. now right.
  - split; [apply in_app_iff; now right|]. split; auto. intros y Iy Vy. apply in_app_iff in Iy as [Iy|Iy]; auto.
    destruct (Nat.le_gt_cases (n_prefix y) (n_prefix z)) as [|G]; auto. exfalso.
    pose proof (sorted_wf _ _ S (proj2 (in_app_iff _ _ _) (or_introl Iy))) as Wy.
    pose proof (sorted_wf _ _ S (proj2 (in_app_iff _ _ _) (or_intror I))) as Wz.
    apply sorted_app in S as (_ & _ & C). specialize (C y z Iy I).
    destruct (nest_bounds z y v Wz Wy V Vy ltac:(lia)) as [B1 B2]. pose proof (lo_mono y z Wy Wz C). assert (lo y = lo z) by lia.
    unfold K in C. lia.
Qed.

Definition has_sub (p : list network) (x : network) : bool :=
  existsb (fun y => is_subnet x y && (n_prefix x <? n_prefix y)%nat) p.
Definition nested (p : list network) : nat := length (filter (has_sub p) p).
Lemma has_sub_iff p x : has_sub p x = true <-> exists y, In y p /\ is_subnet x y = true /\ (n_prefix x < n_prefix y)%nat.
Proof.
  unfold has_sub. rewrite existsb_exists. split; intros (y & I & H); exists y; split; auto.
  - apply andb_true_iff in H as [H1 H2]. split; auto. lia.
  - apply andb_true_iff. split; [tauto|]. destruct H. lia.
Qed.

Lemma sorted_NoDup l : sorted l -> NoDup l.
Proof.
  induction l as [|x l IH]; intros S; constructor; apply sorted_cons in S as (_ & F & S); auto.
  intros I. specialize (F x I). lia.
Qed.

Lemma nested_less p q x : NoDup q -> (forall y, In y q -> has_sub q y = true -> In y p /\ has_sub p y = true) ->
  In x p -> has_sub p x = true -> ~ In x q -> (nested q < nested p)%nat.
Proof.
  intros Nd H Ix Hx Nx. unfold nested.
  assert (X : (length (x :: filter (has_sub q) q) <= length (filter (has_sub p) p))%nat); [|cbn [length] in X; lia].
  apply NoDup_incl_length.
  - constructor; [|now apply NoDup_filter]. intros I. apply filter_In in I as [I _]. auto.
  - intros y [<-|I]; apply filter_In; auto. apply filter_In in I as [I Hy]. now apply H.
Qed.

Lemma nested_incl p q : NoDup q -> (forall y, In y q -> In y p) -> (nested q <= nested p)%nat.
Proof.
  intros Nd H. unfold nested. apply NoDup_incl_length; [now apply NoDup_filter|].
  intros y I. apply filter_In in I as [I Hy]. apply filter_In. split; auto.
  apply has_sub_iff in Hy as (z & Iz & Hz). apply has_sub_iff. exists z. auto.
Qed.

Lemma ins_all_iff ns : forall l z, sorted ns -> (forall x y, In x ns -> In y l -> K x <> K y) ->
  In z (ins_all l ns) <-> In z l \/ In z ns.
Proof.
  induction ns as [|a ns IH]; intros l z S H; [cbn; tauto|]. rewrite ins_all_cons. apply sorted_cons in S as (Wa & Fa & S).
  assert (M : mem a l = false) by (apply mem_false_iff; intros y Iy E; apply (H a y); auto; now left).
  rewrite IH; auto.
  - cbn [In]. split.
    + intros [I|I]; auto. apply ins_in in I as [->|I]; auto.
    + intros [I|[<-|I]]; auto; left; [now apply ins_in_old|now apply ins_new].
  - intros x y Ix Iy. apply ins_in in Iy as [->|Iy]; [specialize (Fa x Ix); lia|apply H; auto; now right].
Qed.

(** [x] is replaced by the pieces of it that are not in one of the subnets. *)
Lemma ms_pieces x subs res rest q' v :
  net_wf x -> sorted subs -> sorted rest -> (forall y, In y subs -> strict x y) ->
  (forall z, In z rest -> hi x < lo z) ->
  (forall r, In r res -> net_wf r /\ attr_eq r x /\ lo x <= lo r /\ hi r <= hi x) -> all_disj res ->
  (forall v, cover res v <-> inb x v /\ ~ cover subs v) ->
  (forall z, In z q' <-> In z subs \/ In z res \/ In z rest) ->
  (forall z, ms (x :: subs ++ rest) v z -> exists z', ms q' v z' /\ attr_eq z' z) /\
  (forall z', ms q' v z' -> exists z, ms (x :: subs ++ rest) v z /\ attr_eq z' z).
Proof.
  intros Wx Ss Sr St Far Hr Dr Cov Iq.
  assert (Refl : forall z, attr_eq z z) by (intros z; repeat split).
  assert (Sin : forall y, In y subs -> inb y v -> inb x v) by (intros y Iy V; destruct (St y Iy) as (A1 & A2 & _); unfold inb in *; lia).
  assert (Rin : forall y, In y rest -> inb y v -> hi x < v) by (intros y Iy V; specialize (Far y Iy); unfold inb in *; lia).
  split.
  - intros z ([<-|I] & V & M).
    + assert (Nc : ~ cover subs v).
      { intros (y & Iy & Vy). specialize (M y (or_intror (proj2 (in_app_iff _ _ _) (or_introl Iy))) Vy). destruct (St y Iy) as (_ & _ & A). lia. }
      destruct (proj2 (Cov v) (conj V Nc)) as (r & Ir & Vr). exists r. split; [|apply Hr, Ir]. split; [apply Iq; auto|]. split; auto.
      intros y Iy Vy. apply Iq in Iy as [Iy|[Iy|Iy]].
      * exfalso. apply Nc. now exists y.
      * destruct (N.eq_dec (K r) (K y)) as [Ek|Ne]; [apply K_eq in Ek; [lia|apply Hr, Ir|apply Hr, Iy]|]. exfalso. assert (r <> y) by congruence. destruct (Dr r y Ir Iy ltac:(auto)); unfold inb in *; lia.
      * exfalso. pose proof (Rin y Iy Vy). unfold inb in V. lia.
    + exists z. split; auto. split; [apply Iq; apply in_app_iff in I; tauto|]. split; auto. intros y Iy Vy.
      apply Iq in Iy as [Iy|[Iy|Iy]].
      * apply M; auto. right. apply in_app_iff. now left.
      * exfalso. destruct (proj1 (Cov v) (ex_intro _ y (conj Iy Vy))) as [Vx Nc]. apply in_app_iff in I as [I|I].
        -- apply Nc. now exists z.
        -- pose proof (Rin z I V). unfold inb in Vx. lia.
      * apply M; auto. right. apply in_app_iff. now right.
  - intros z' (I & V & M). apply Iq in I as [I|[I|I]].
    + exists z'. split; auto. split; [right; apply in_app_iff; now left|]. split; auto. intros y [<-|Iy] Vy.
      * destruct (St z' I) as (_ & _ & A). lia.
      * apply M; auto. apply Iq. apply in_app_iff in Iy. tauto.
    + destruct (proj1 (Cov v) (ex_intro _ z' (conj I V))) as [Vx Nc]. exists x. split; [|apply Hr, I]. split; [now left|]. split; auto.
      intros y [<-|Iy] Vy; [lia|]. exfalso. apply in_app_iff in Iy as [Iy|Iy]; [apply Nc; now exists y|].
      pose proof (Rin y Iy Vy). unfold inb in Vx. lia.
    + exists z'. split; auto. split; [right; apply in_app_iff; now right|]. split; auto. intros y [<-|Iy] Vy.
      * pose proof (Rin z' I V). unfold inb in Vy. lia.
      * apply M; auto. apply Iq. apply in_app_iff in Iy. tauto.
Qed.

Section All.
Variable beyond : nat -> option N.
Variable d : db.
Variable old : option network.
Variable e0 : enum.
Hypothesis Mode : en_mode e0 = Networks.
Hypothesis Flatten : en_flatten e0 = true.
Notation keep := (keep e0).
Notation pend := (pend beyond d e0).

Lemma next_flat e fuel : same_cfg e0 e -> next_network beyond d fuel old e = next_flattened beyond d fuel e fuel.
Proof. intros (a & n & v & s & t & ->). unfold next_network. cbn [with_lists with_search en_mode en_flatten]. now rewrite Mode, Flatten. Qed.

Definition gives (fuel n : nat) (e : enum) (L : list network) : Prop :=
  match L with
  | [] => exists e1, forall k, (n < k)%nat -> next_flattened beyond d fuel e k = Ok (e1, None, 0%Z)
  | x :: L' => exists e1 e2 e3, (forall k, (n < k)%nat -> next_flattened beyond d fuel e k = Ok (e1, Some x, 0%Z)) /\
      returns (next_network beyond d fuel old) e1 L' e2 /\ next_network beyond d fuel old e2 = Ok (e3, None, 0%Z)
  end.

Lemma gives_enumerates fuel n e L : (n < fuel)%nat -> same_cfg e0 e -> gives fuel n e L -> enumerates (next_network beyond d fuel old) e L.
Proof.
  intros Hf C G. destruct L as [|x L].
  - destruct G as (e1 & G). exists e, e1. split; [constructor|]. rewrite next_flat by auto. now apply G.
  - destruct G as (e1 & e2 & e3 & G & R & E). exists e2, e3. split; auto. econstructor; [|exact R]. rewrite next_flat by auto. now apply G.
Qed.

Definition no_bad (p : list network) : Prop := forall y z, In y p -> In z p -> strict y z -> ~ exclude_bad y z.

Lemma flat_all : forall n m Sl Rl e, (nested (Sl ++ Rl) <= n)%nat -> (length (Sl ++ Rl) <= m)%nat -> pend e [] Sl Rl ->
  sorted (Sl ++ Rl) -> no_bad (Sl ++ Rl) ->
  exists L f0, StronglySorted (fun x y => hi x < lo y) L /\ Forall net_wf L /\
    (forall x v, In x L -> inb x v -> exists z, ms (Sl ++ Rl) v z /\ keep z = true /\ attr_eq x z) /\
    (forall v z, ms (Sl ++ Rl) v z -> keep z = true -> exists x, In x L /\ inb x v /\ attr_eq x z) /\
    forall fuel, (f0 <= fuel)%nat -> gives fuel n e L.
Proof.
  intros n. induction n as [n IHn] using lt_wf_ind. intros m. induction m as [m IHm] using lt_wf_ind.
  intros Sl Rl e Ln Lm P Sp Nb. set (p := Sl ++ Rl) in *.
  destruct (inner_call beyond d e0 true Rl [] Sl e P) as (f0 & e1 & X). fold p in X.
  destruct (filter (kept e0 true) p) as [|x fl] eqn:Fp.
  { destruct X as [X P1]. exists [], f0. split; [constructor|]. split; [constructor|]. split; [intros x v []|]. split.
    - intros v z (I & _) Kz. assert (I' : In z (filter (kept e0 true) p)) by (apply filter_In; auto). rewrite Fp in I'. destruct I'.
    - intros fuel Lf. exists e1. intros [|k] Lk; [lia|]. cbn [next_flattened]. rewrite X by auto. reflexivity. }
  destruct X as (skip & S1 & R1 & Ep & Sk & X & P1).
  assert (Kx : keep x = true).
  { assert (I : In x (filter (kept e0 true) p)) by (rewrite Fp; now left). now apply filter_In in I. }
  pose proof Sp as Sp0. rewrite Ep in Sp0. pose proof (proj1 (sorted_app _ _) Sp0) as (_ & Sxq & _).
  pose proof (proj1 (sorted_cons _ _) Sxq) as (Wx & Fx & Sq).
  destruct (collect_spec beyond d e0 x Wx (length (S1 ++ R1)) S1 R1 e1 [] ltac:(lia) P1 Sq sorted_nil) as (subs & S2 & R2 & f1 & e2 & Eq & Hs & Hd & Hc & P2);
    [intros z y []|]. cbn [app] in P2.
  assert (Skip : forall v z, (ms p v z /\ keep z = true) <-> (ms (x :: subs ++ S2 ++ R2) v z /\ keep z = true)).
  { intros v z. rewrite Ep, <- Eq. apply ms_skip; auto. }
  rewrite Eq in Sq, Fx. pose proof (proj1 (sorted_app _ _) Sq) as (Ss & Srest & Cr).
  assert (Far : forall z, In z (S2 ++ R2) -> hi x < lo z).
  { destruct (S2 ++ R2) as [|y q] eqn:E; [intros z []|]. apply after_first; auto. apply Fx, in_app_iff. right. now left. }
  assert (St : forall y, In y subs -> strict x y).
  { intros y Iy. pose proof (sorted_wf _ _ Ss Iy) as Wy. pose proof (Fx y (proj2 (in_app_iff _ _ _) (or_introl Iy))) as Lt.
    apply not_strict_cases; auto. rewrite network_cmp_0 by auto. lia. }
  assert (Inp : forall z, In z (x :: subs ++ S2 ++ R2) -> In z p) by (intros z Iz; rewrite Ep, Eq; apply in_app_iff; now right).
  assert (Sx : sorted (x :: subs ++ S2 ++ R2)) by (rewrite Eq in Sxq; exact Sxq).
  assert (Len : (length (subs ++ S2 ++ R2) < length p)%nat) by (rewrite <- Eq, Ep, (app_length skip); cbn [length]; lia).
  destruct (list_clear_spec _ _ (proj1 (proj2 (proj2 P2)))) as (t & Et & Rt).
  destruct subs as [|y0 subs0] eqn:Esubs.
  - (* nothing is inside *)
    cbn [app] in *.
    assert (P3 : pend (with_lists e2 (en_stack e2) t) [] S2 R2) by (eapply pend_lists; [exact P2|apply P2|exact Rt]).
    destruct (IHm (length (S2 ++ R2)) ltac:(lia) S2 R2 (with_lists e2 (en_stack e2) t)) as (L & f2 & C1 & C2 & C3 & C4 & C5); auto.
    { eapply Nat.le_trans; [|exact Ln]. apply nested_incl; [now apply sorted_NoDup|]. intros z Iz. apply Inp. now right. }
    { intros z w Iz Iw. apply Nb; apply Inp; now right. }
    assert (Far' : forall y, In y L -> hi x < lo y).
    { intros y Iy. pose proof (proj1 (Forall_forall _ _) C2 y Iy) as Wy. destruct (C3 y (lo y) Iy (inb_lo y Wy)) as (z & (Iz & Vz & _) & _).
      specialize (Far z Iz). unfold inb in Vz. lia. }
    exists (x :: L), (Nat.max (S n) (Nat.max (Nat.max f0 f1) f2)). split; [|split; [|split; [|split]]].
    + constructor; auto. apply Forall_forall. exact Far'.
    + constructor; auto.
    + intros y v [<-|Iy] V.
      * exists x. split; [|split; [exact Kx|repeat split]]. apply (Skip v x). split; auto. split; [now left|]. split; auto.
        intros z [<-|Iz] Vz; [lia|]. specialize (Far z Iz). unfold inb in *. lia.
      * destruct (C3 y v Iy V) as (z & (Iz & Vz & Mz) & Kz & A). exists z. split; auto. apply (Skip v z). split; auto.
        split; [now right|]. split; auto. intros w [<-|Iw] Vw; auto. specialize (Far z Iz). unfold inb in *. lia.
    + intros v z Mz Kz. destruct (proj1 (Skip v z) (conj Mz Kz)) as [([<-|Iz] & Vz & Mx) _].
      * exists x. split; [now left|]. split; auto. repeat split.
      * destruct (C4 v z) as (y & Iy & Vy & A); [split; auto; split; auto; intros w Iw; apply Mx; now right|auto|].
        exists y. split; [now right|]. auto.
    + intros fuel Lf. specialize (C5 fuel ltac:(lia)).
      assert (Call : forall k, (n < k)%nat -> next_flattened beyond d fuel e k = Ok (with_lists e2 (en_stack e2) t, Some x, 0%Z)).
      { intros [|k] Lk; [lia|]. cbn [next_flattened]. rewrite X by lia. cbn [bind Z.eqb negb].
        rewrite Hc by (cbn [length]; lia). cbn [bind Z.eqb negb]. unfold list_empty. destruct P2 as (_ & _ & [Z _] & _). rewrite Z. cbn [length Nat.eqb].
        rewrite Et. reflexivity. }
      apply gives_enumerates in C5; [|lia|apply P3]. destruct C5 as (e3 & e4 & R & E).
      exists (with_lists e2 (en_stack e2) t), e3, e4. auto.
  - (* subnets are taken out *)
    rewrite <- Esubs in *.
    destruct (exclude_list_spec (en_subnets e2) subs (proj1 (proj2 (proj2 P2))) Ss x Wx) as (fx & Hx).
    { intros y Iy. apply Nb; apply Inp; [now left|right; apply in_app_iff; now left]. }
    { left. exists y0. assert (I0 : In y0 subs) by (rewrite Esubs; now left). split; auto. }
    destruct (Hx fx (le_n _)) as (Rx & res & Ex & Rr & Sr & Dr & Gr & Cov).
    destruct (list_merge_spec (en_stack e2) S2 (en_subnets e2) subs (proj1 (proj2 P2)) ltac:(apply sorted_app in Srest; apply Srest) (proj1 (proj2 (proj2 P2))) (s_wf _ Ss))
      as (s1 & Es1 & Rs1).
    assert (SS2 : sorted S2 /\ sorted R2 /\ forall a b, In a S2 -> In b R2 -> K a < K b) by (now apply sorted_app).
    assert (Ss1 : sorted (ins_all S2 subs)) by (apply sorted_ins_all; [apply SS2|apply Ss]).
    destruct (list_merge_spec s1 (ins_all S2 subs) Rx res Rs1 Ss1 Rr (s_wf _ Sr)) as (s2 & Es2 & Rs2).
    set (S3 := ins_all (ins_all S2 subs) res) in *.
    assert (Inx : forall y, In y subs -> lo x <= lo y /\ hi y <= hi x) by (intros y Iy; destruct (St y Iy) as (A & B & _); auto).
    assert (Rin : forall r, In r res -> net_wf r /\ attr_eq r x /\ lo x <= lo r /\ hi r <= hi x) by (intros r Ir; destruct (Gr r Ir); auto).
    assert (Clear : forall r y, In r res -> In y subs -> forall v, inb r v -> ~ inb y v).
    { intros r y Ir Iy v Vr Vy. destruct (proj1 (Cov v) (ex_intro _ r (conj Ir Vr))) as [_ Nc]. apply Nc. now exists y. }
    assert (In1 : forall z, In z (ins_all S2 subs) <-> In z S2 \/ In z subs).
    { intros z. apply ins_all_iff; auto. intros a b Ia Ib E. specialize (Cr a b Ia (proj2 (in_app_iff _ _ _) (or_introl Ib))). lia. }
    assert (In3 : forall z, In z S3 <-> (In z S2 \/ In z subs) \/ In z res).
    { intros z. unfold S3. rewrite ins_all_iff; [rewrite In1; tauto|auto|]. intros a b Ia Ib E. destruct (Rin a Ia) as (Wa & _ & La & Ha).
      pose proof (lo_le_hi a Wa). apply In1 in Ib as [Ib|Ib].
      - specialize (Far b (proj2 (in_app_iff _ _ _) (or_introl Ib))). pose proof (sorted_wf _ _ (proj1 SS2) Ib) as Wb.
        apply K_eq in E; auto. lia.
      - pose proof (sorted_wf _ _ Ss Ib) as Wb. apply K_eq in E as [E _]; auto. apply (Clear a b Ia Ib (lo a)); [now apply inb_lo|].
        rewrite E. now apply inb_lo. }
    assert (S3s : sorted S3) by (apply sorted_ins_all; [auto|apply Sr]).
    assert (P3 : pend (with_lists e2 s2 t) [] S3 R2) by (eapply pend_lists; [exact P2|exact Rs2|exact Rt]).
    assert (Iq : forall z, In z (S3 ++ R2) <-> In z subs \/ In z res \/ In z (S2 ++ R2)) by (intros z; rewrite !in_app_iff, In3; tauto).
    assert (Sq' : sorted (S3 ++ R2)).
    { apply sorted_app. split; auto. split; [apply SS2|]. intros a b Ia Ib. apply In3 in Ia as [[Ia|Ia]|Ia].
      - now apply SS2.
      - apply Cr; auto. apply in_app_iff. now right.
      - specialize (Far b (proj2 (in_app_iff _ _ _) (or_intror Ib))). destruct (Rin a Ia) as (Wa & _ & _ & Ha).
        pose proof (lo_le_hi a Wa). pose proof (w_prefix a Wa). unfold K. lia. }
    assert (Lone : forall r z, In r res -> In z (S3 ++ R2) -> is_subnet r z = true -> (n_prefix r < n_prefix z)%nat -> False).
    { intros r z Ir Iz Su Lt. destruct (Rin r Ir) as (Wr & _ & Lr & Hr). pose proof (sorted_wf _ _ Sq' Iz) as Wz.
      apply is_subnet_iff in Su as [B1 B2]; auto. pose proof (lo_le_hi z Wz). apply Iq in Iz as [Iz|[Iz|Iz]].
      - apply (Clear r z Ir Iz (lo z)); unfold inb; lia.
      - assert (Ne : r <> z) by (intros ->; lia). destruct (Dr r z Ir Iz Ne); lia.
      - specialize (Far z Iz). lia. }
    assert (Lone' : forall r z, In r res -> In z (S3 ++ R2) -> is_subnet z r = true -> (n_prefix z < n_prefix r)%nat -> False).
    { intros r z Ir Iz Su Lt. destruct (Rin r Ir) as (Wr & _ & Lr & Hr). pose proof (sorted_wf _ _ Sq' Iz) as Wz.
      apply is_subnet_iff in Su as [B1 B2]; auto. pose proof (lo_le_hi r Wr). apply Iq in Iz as [Iz|[Iz|Iz]].
      - apply (Clear r z Ir Iz (lo r)); unfold inb; lia.
      - assert (Ne : r <> z) by (intros ->; lia). destruct (Dr r z Ir Iz Ne); lia.
      - specialize (Far z Iz). lia. }
    assert (Ix : ~ In x (S3 ++ R2)).
    { intros I. apply Iq in I as [I|[I|I]].
      - destruct (St x I) as (_ & _ & A). lia.
      - assert (I0 : In y0 subs) by (rewrite Esubs; now left). destruct (St y0 I0) as (A1 & A2 & _).
        pose proof (lo_le_hi y0 (sorted_wf _ _ Ss I0)). apply (Clear x y0 I I0 (lo y0)); unfold inb; lia.
      - specialize (Far x I). pose proof (lo_le_hi x Wx). lia. }
    assert (Ne : (nested (S3 ++ R2) < nested p)%nat).
    { apply nested_less with x; auto.
      - now apply sorted_NoDup.
      - intros y Iy Hy. apply has_sub_iff in Hy as (z & Iz & Su & Lt).
        assert (Back : forall w, In w (S3 ++ R2) -> ~ In w res -> In w p).
        { intros w Iw Nw. apply Inp. right. apply Iq in Iw. apply in_app_iff. tauto. }
        split; [apply Back; auto; intros Ir; now apply (Lone y z)|].
        apply has_sub_iff. exists z. split; auto. apply Back; auto. intros Ir. now apply (Lone' z y).
      - apply Inp. now left.
      - apply has_sub_iff. exists y0. assert (I0 : In y0 subs) by (rewrite Esubs; now left). split; [apply Inp; right; apply in_app_iff; now left|].
        split; auto. destruct (St y0 I0) as (_ & _ & A). exact A. }
    destruct (IHn (nested (S3 ++ R2)) ltac:(lia) (length (S3 ++ R2)) S3 R2 (with_lists e2 s2 t) ltac:(lia) ltac:(lia) P3 Sq')
      as (L & f2 & C1 & C2 & C3 & C4 & C5).
    { intros y z Iy Iz Hst. assert (Su : is_subnet y z = true).
      { apply is_subnet_iff; [exact (sorted_wf _ _ Sq' Iy)|exact (sorted_wf _ _ Sq' Iz)|]. destruct Hst as (A & B & _). auto. }
      assert (Back : forall w, In w (S3 ++ R2) -> ~ In w res -> In w p).
      { intros w Iw Nw. apply Inp. right. apply Iq in Iw. apply in_app_iff. tauto. }
      apply Nb; auto; apply Back; auto; intros Ir; [apply (Lone y z)|apply (Lone' z y)]; auto; apply Hst. }
    pose proof (fun v => ms_pieces x subs res (S2 ++ R2) (S3 ++ R2) v Wx Ss Srest St Far Rin Dr Cov Iq) as MP.
    exists L, (Nat.max (Nat.max (length subs + 1) (Nat.max f0 f1)) (Nat.max fx f2)). split; [exact C1|]. split; [exact C2|]. split; [|split].
    + intros y v Iy V. destruct (C3 y v Iy V) as (z' & Mz' & Kz' & A'). destruct (proj2 (MP v) z' Mz') as (z & Mz & A).
      assert (Kz : keep z = true) by (rewrite <- (keep_attr e0 _ _ A); exact Kz'). exists z. split; [apply (proj2 (Skip v z)); auto|]. split; auto.
      eapply attr_eq_trans; eauto.
    + intros v z Mz Kz. destruct (proj1 (Skip v z) (conj Mz Kz)) as [Mx _]. destruct (proj1 (MP v) z Mx) as (z' & Mz' & A).
      destruct (C4 v z' Mz') as (y & Iy & Vy & A'); [rewrite (keep_attr e0 _ _ A); exact Kz|]. exists y. split; auto. split; auto.
      eapply attr_eq_trans; eauto.
    + intros fuel Lf. specialize (C5 fuel ltac:(lia)).
      assert (Call : forall k, next_flattened beyond d fuel e (S k) = next_flattened beyond d fuel (with_lists e2 s2 t) k).
      { intros k. cbn [next_flattened]. rewrite X by lia. cbn [bind Z.eqb negb]. rewrite Hc by lia. cbn [bind Z.eqb negb].
        assert (Emp : list_empty (en_subnets e2) = false).
        { unfold list_empty. destruct P2 as (_ & _ & [Z _] & _). rewrite Z, Esubs. reflexivity. }
        rewrite Emp. rewrite (exclude_list_mono _ _ _ _ Ex fuel ltac:(lia)). rewrite Es1. cbn [bind]. rewrite Es2. cbn [bind]. rewrite Et. reflexivity. }
      destruct L as [|x1 L].
      * destruct C5 as (e3 & C5). exists e3. intros [|k] Lk; [lia|]. rewrite Call. apply C5. lia.
      * destruct C5 as (e3 & e4 & e5 & C5 & C6). exists e3, e4, e5. split; auto. intros [|k] Lk; [lia|]. rewrite Call. apply C5. lia.
Qed.
End All.
