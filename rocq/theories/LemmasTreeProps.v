(** From the tree lemmas to the properties of the writer's set of networks. *)
From Coq Require Import NArith ZArith List Bool Arith Lia ZifyBool ZifyNat ZifyN Permutation.
From Verif Require Import Base LemmasBase ModelAddress LemmasAddress ModelCountryCode ModelNetwork
  LemmasNetwork ModelNetworkList LemmasNetworkList ModelTree LemmasPath LemmasTree LemmasDedup LemmasMergeTree
  SpecNetwork LemmasSpecNetwork SpecTree.
Import ListNotations.
Open Scope N_scope.

Lemma stored_nt t x : In x (stored t) <-> exists r, nt t r = Some x.
Proof.
  induction t as [|d n z IHz o IHo]; cbn [stored].
  - split; [intros []|]. intros [r E]. unfold nt in E. now rewrite sub_nil in E.
  - rewrite !in_app_iff, IHz, IHo. split.
    + intros [H|[[r H]|[r H]]].
      * exists []. destruct n; [destruct H as [->|[]]|destruct H]. reflexivity.
      * exists (false :: r). exact H.
      * exists (true :: r). exact H.
    + intros [[|b r] H].
      * left. cbn in H. subst n. now left.
      * rewrite nt_cons in H. destruct b; eauto.
Qed.

Lemma stored_path t x : tree_ok t -> In x (stored t) <-> nt t (path x) = Some x.
Proof.
  intros [W _]. rewrite stored_nt. split; [|eauto]. intros [r E].
  destruct (wf_nt [] t r x W E) as [_ P]. cbn [app] in P. now rewrite P.
Qed.

Lemma stored_wf t x : tree_ok t -> In x (stored t) -> net_wf x.
Proof. intros T I. apply stored_path in I; auto. now apply (wf_nt [] t) in I as [? _]; [|apply T]. Qed.

Lemma stored_nodup t : forall q, wf_at q t -> NoDup (stored t).
Proof.
  assert (P : forall t q x, wf_at q t -> In x (stored t) -> pre q (path x)).
  { intros t' q x W I. apply stored_nt in I as [r E]. apply (wf_nt q) in E as [_ ->]; auto. apply pre_app. }
  induction t as [|d n z IHz o IHo]; intros q W; cbn [stored]; [constructor|].
  pose proof W as (_ & _ & W3 & W4 & W5).
  assert (D : NoDup (stored z ++ stored o)).
  { assert (X : forall x, In x (stored z) -> ~ In x (stored o)).
    { intros x I1 I2. apply P with (q := q ++ [false]) in I1; auto. apply P with (q := q ++ [true]) in I2; auto.
      assert (Q : q ++ [false] = q ++ [true]).
      { apply pre_antisym; [|rewrite !app_length; cbn; lia].
        apply pre_comparable with (path x); auto. rewrite !app_length. cbn. lia. }
      apply app_inj_tail in Q as [_ Q]. discriminate. }
    specialize (IHz _ W4). specialize (IHo _ W5). clear -IHz IHo X.
    induction (stored z) as [|a l IH]; cbn [app]; auto. inversion IHz; subst. constructor.
    - rewrite in_app_iff. intros [?|?]; auto. apply (X a); auto. now left.
    - apply IH; auto. intros x I. apply X. now right. }
  destruct n as [x|]; cbn [app]; auto. constructor; auto. destruct (W3 x eq_refl) as [_ Px].
  rewrite in_app_iff. intros [I|I].
  - apply P with (q := q ++ [false]) in I; auto. apply pre_length in I. rewrite Px, app_length in I. cbn in I. lia.
  - apply P with (q := q ++ [true]) in I; auto. apply pre_length in I. rewrite Px, app_length in I. cbn in I. lia.
Qed.

(** ** adding *)
Lemma at_path_spec f p : forall q t, wf_at q t -> live t -> (length (q ++ p) <= 128)%nat ->
  (forall s, live s -> wf_at (q ++ p) s -> wf_at (q ++ p) (f s) /\ live (f s)) ->
  wf_at q (at_path t p f) /\ live (at_path t p f) /\
  (forall r, ~ pre p r -> nt (at_path t p f) r = nt t r) /\
  exists s, live s /\ wf_at (q ++ p) s /\ (forall r, nt s r = nt t (p ++ r)) /\ sub (at_path t p f) p = f s.
Proof.
  induction p as [|b p IH]; intros q t W L Hl Hf.
  - rewrite app_nil_r in *. cbn [at_path]. destruct (Hf t L W) as [F1 F2]. split; auto. split; auto.
    split. { intros r P. exfalso. apply P. now exists r. }
    exists t. auto.
  - destruct t as [|[] n z o]; [destruct L|destruct L|]. destruct W as (W1 & W2 & W3 & W4 & W5).
    assert (Eq : (q ++ [b]) ++ p = q ++ b :: p) by now rewrite <- app_assoc.
    set (c := if b then o else z).
    assert (Wc : wf_at (q ++ [b]) c) by (unfold c; destruct b; auto).
    assert (Hq : (length (q ++ [b]) <= 128)%nat) by (rewrite <- Eq, app_length in Hl; lia).
    assert (Wv : wf_at (q ++ [b]) (visit c)).
    { destruct c as [|dc nc zc oc]; cbn [visit]; [unfold node_new; cbn [wf_at]|].
      - split; [exact Hq|]. split; [discriminate|]. split; [discriminate|]. split; exact I.
      - destruct Wc as (C1 & C2 & C3). cbn [wf_at]. split; [exact Hq|]. split; [discriminate|exact C3]. }
    assert (Lv : live (visit c)) by (destruct c; exact I).
    assert (Nv : forall r, nt (visit c) r = nt c r).
    { intros r. destruct c as [|dc nc zc oc], r as [|[] r]; auto;
        unfold nt; cbn [visit sub node_new]; now rewrite ?sub_nil. }
    destruct (IH (q ++ [b]) (visit c) Wv Lv) as (I1 & I2 & I3 & s & S1 & S2 & S3 & S4).
    { now rewrite Eq. } { now rewrite Eq. }
    cbn [at_path]. assert (A : (if b then Node false n z (at_path (visit o) p f) else Node false n (at_path (visit z) p f) o)
      = Node false n (if b then z else at_path (visit c) p f) (if b then at_path (visit c) p f else o)).
    { unfold c. destruct b; reflexivity. }
    rewrite A. clear A. split; [|split; [exact I|split]].
    + cbn [wf_at]. split; auto. split; [discriminate|]. split; auto. destruct b; auto.
    + intros [|a r] P; auto. rewrite !nt_cons.
      destruct (Bool.bool_dec a b) as [->|D].
      * replace (if b then if b then at_path (visit c) p f else o else if b then z else at_path (visit c) p f)
          with (at_path (visit c) p f) by now destruct b.
        rewrite I3, Nv; auto. intros [y ->]. apply P. now exists y.
      * destruct a, b; auto; congruence.
    + exists s. rewrite <- Eq. split; auto. split; auto. split.
      * intros r. rewrite S3, Nv. reflexivity.
      * rewrite <- S4. destruct b; reflexivity.
Qed.

Lemma tree_add_spec t n : tree_ok t -> net_wf n ->
  match nt t (path n) with
  | Some _ => tree_add t n = (t, (-EBUSY)%Z)
  | None => exists t', tree_add t n = (t', 0%Z) /\ tree_ok t' /\ nt t' (path n) = Some n /\
              forall r, r <> path n -> nt t' r = nt t r
  end.
Proof.
  intros [W L] Wn. unfold tree_add. destruct (nt t (path n)) as [y|] eqn:E.
  - rewrite at_path_repl with (q := []) by (auto; now apply (wf_live [] t _ y)). rewrite repl_same.
    fold (nt t (path n)). now rewrite E.
  - destruct (at_path_spec (fun s => s) (path n) [] t W L) as (W1 & L1 & N1 & s & S1 & S2 & S3 & S4).
    { cbn [app]. rewrite path_length. apply Wn. } { auto. }
    set (t1 := at_path t (path n) (fun s => s)) in *.
    assert (N0 : net_of (sub t1 (path n)) = None).
    { rewrite S4. specialize (S3 []). rewrite app_nil_r, E in S3. exact S3. }
    rewrite N0. rewrite at_path_repl with (q := []) by (auto; now rewrite S4).
    exists (repl t1 (path n) (set_net (Some n) (sub t1 (path n)))). split; auto.
    assert (E1 : sub t1 (path n) <> Nil) by (rewrite S4; destruct s; [destruct S1|discriminate]).
    rewrite S4. destruct s as [|[] ns zs os]; [destruct S1|destruct S1|]. cbn [set_net].
    split; [split|split].
    + apply wf_repl; auto. destruct S2 as (A1 & A2 & A3 & A4 & A5). cbn [wf_at]. split; auto.
      split; [discriminate|]. split; auto. intros x X. injection X as <-. auto.
    + apply live_repl; auto.
    + unfold nt. now rewrite sub_repl.
    + intros r D. assert (P : pre (path n) r \/ ~ pre (path n) r).
      { rewrite pre_firstn. destruct (list_eq_dec Bool.bool_dec (firstn (length (path n)) r) (path n)); auto. }
      destruct P as [[y ->]|P].
      * rewrite nt_repl_under by auto. destruct y as [|b y]; [now rewrite app_nil_r in D|].
        rewrite nt_cons. rewrite <- S3. reflexivity.
      * rewrite nt_repl_out by auto. now apply N1.
Qed.

Lemma cc_ok_iff c : cc_ok c <-> (fst c = 0 /\ snd c < 256) \/ (65 <= fst c <= 90 /\ 65 <= snd c <= 90 /\ fst c <> 88).
Proof. unfold cc_ok. now rewrite cc_valid_iff. Qed.

Lemma with_attributes_wf x a : net_wf x -> attributes_ok a -> net_wf (with_attributes x a).
Proof.
  destruct a as [[c s] f]. intros W (A1 & A2 & A3). apply cc_ok_iff in A1. now apply net_wf_attrs.
Qed.
Lemma with_attributes_path x a : path (with_attributes x a) = path x.
Proof. destruct a as [[c s] f]. reflexivity. Qed.

Lemma change_spec t n a : tree_ok t -> attributes_ok a -> tree_ok (change t n a) /\
  forall r, nt (change t n a) r =
    if list_eq_dec Bool.bool_dec r (path n) then option_map (fun x => with_attributes x a) (nt t r) else nt t r.
Proof.
  intros [W L] A. unfold change. fold (nt t (path n)). destruct (nt t (path n)) as [x|] eqn:E.
  - pose proof (wf_live [] t _ x W E) as Lx. rewrite at_path_repl with (q := []) by auto.
    destruct (wf_nt [] t _ x W E) as [Wx Px]. cbn [app] in Px. pose proof (wf_sub (path n) [] t W) as Ws. cbn [app] in Ws.
    assert (En : sub t (path n) <> Nil) by (destruct (sub t (path n)); [destruct Lx|discriminate]).
    destruct (sub t (path n)) as [|[] ns zs os] eqn:Es; [destruct Lx|destruct Lx|]. cbn [set_net].
    assert (Ep : sub t (path n) <> Nil) by (rewrite Es; discriminate).
    split; [split|].
    + apply wf_repl; auto. destruct Ws as (A1 & A2 & A3 & A4 & A5). cbn [wf_at app]. split; auto.
      split; [discriminate|]. split; auto. intros y Y. injection Y as <-.
      rewrite with_attributes_path. split; auto. now apply with_attributes_wf.
    + apply live_repl; auto.
    + intros r. destruct (list_eq_dec Bool.bool_dec r (path n)) as [->|D].
      * unfold nt at 1. rewrite sub_repl by auto. now rewrite E.
      * assert (P : pre (path n) r \/ ~ pre (path n) r).
        { rewrite pre_firstn. destruct (list_eq_dec Bool.bool_dec (firstn (length (path n)) r) (path n)); auto. }
        destruct P as [[y ->]|P]; [|now rewrite nt_repl_out].
        rewrite nt_repl_under by auto. destruct y as [|b y]; [now rewrite app_nil_r in D|].
        unfold nt. rewrite sub_app, Es. reflexivity.
  - split; [split; auto|]. intros r. destruct (list_eq_dec Bool.bool_dec r (path n)) as [->|D]; auto. now rewrite E.
Qed.

Lemma same_block_iff n m : net_wf n -> net_wf m -> same_block n m = true <-> path n = path m.
Proof.
  intros Hn Hm. unfold same_block. rewrite path_eq, K_eq by auto. unfold lo, num, val. lia.
Qed.

Lemma tree_new_ok : tree_ok tree_new.
Proof.
  split; [|exact I]. cbn. split; [lia|]. split; [discriminate|]. split; [discriminate|auto].
Qed.

Definition in_step (t : tree) (S : list network) : Prop :=
  Permutation (stored t) S /\ NoDup S.

Lemma in_step_iff t S : tree_ok t -> NoDup S -> (forall x, In x (stored t) <-> In x S) -> in_step t S.
Proof. intros T N H. split; auto. apply NoDup_Permutation; auto. now apply (stored_nodup t []), T. Qed.

Definition not_cleanup (o : wop) : Prop := match o with CleanUp => False | _ => True end.

Lemma wstep_set ctz0 held t S o : tree_ok t -> in_step t S -> wop_ok o -> not_cleanup o ->
  exists t', wstep ctz0 held t o = Ok (t', snd (set_step S o)) /\ tree_ok t' /\ in_step t' (fst (set_step S o)).
Proof.
  intros T [P N] O C.
  assert (H : forall x, In x (stored t) <-> In x S).
  { intros x. split; apply Permutation_in; [auto|now apply Permutation_sym]. }
  assert (Wf : forall x, In x S -> net_wf x) by (intros x I; apply H in I; now apply (stored_wf t)).
  destruct o as [n|n a|]; cbn [wstep set_step wop_ok] in *; [| |destruct C].
  - apply valid_net_wf in O. pose proof (tree_add_spec t n T O) as A.
    destruct (nt t (path n)) as [y|] eqn:E.
    + assert (X : existsb (same_block n) S = true).
      { apply existsb_exists. exists y. destruct (wf_nt [] t _ y (proj1 T) E) as [Wy Py]. cbn [app] in Py.
        split; [|now apply same_block_iff]. apply H, stored_path; auto. now rewrite Py. }
      rewrite X, A. exists t. cbn. split; auto. split; auto. split; auto.
    + assert (X : existsb (same_block n) S = false).
      { apply Bool.not_true_is_false. intros X. apply existsb_exists in X as (y & I & X).
        apply same_block_iff in X; auto. apply H, stored_path in I; auto. rewrite <- X in I. congruence. }
      rewrite X. destruct A as (t' & -> & T' & A1 & A2). exists t'. cbn [fst snd]. split; auto. split; auto.
      apply in_step_iff; auto.
      * constructor; auto. intros I. apply H, stored_path in I; auto. congruence.
      * intros x. rewrite stored_path by auto. cbn [In].
        destruct (list_eq_dec Bool.bool_dec (path x) (path n)) as [Q|Q].
        -- rewrite Q, A1. split; [intros X2; injection X2; auto|]. intros [->|I]; auto.
           apply H, stored_path in I; auto. rewrite Q in I. congruence.
        -- rewrite A2 by auto. rewrite <- (stored_path t) by auto. rewrite H. split; auto.
           intros [->|I]; auto. congruence.
  - destruct O as [O A]. apply valid_net_wf in O. destruct (change_spec t n a T A) as [T' Nt].
    exists (change t n a). cbn [fst snd]. split; auto. split; auto.
    set (g := fun x => if same_block n x then with_attributes x a else x).
    assert (Gp : forall x, path (g x) = path x).
    { intros x. unfold g. destruct (same_block n x); auto. apply with_attributes_path. }
    apply in_step_iff; auto.
    + (* paths are distinct, so the images are *)
      assert (D : forall x y, In x S -> In y S -> path x = path y -> x = y).
      { intros x y I J Q. apply H, stored_path in I; auto. apply H, stored_path in J; auto. rewrite Q in I. congruence. }
      clear -N D Gp. induction S as [|x S IH]; cbn [map]; [constructor|]. inversion N; subst. constructor.
      * rewrite in_map_iff. intros (y & E & I). apply H1. rewrite (D x y); auto; [now left|now right|].
        rewrite <- (Gp x), <- (Gp y). now rewrite E.
      * apply IH; auto. intros y z I J. apply D; now right.
    + intros x. rewrite stored_path by auto. rewrite in_map_iff. rewrite Nt. split.
      * intros E. destruct (list_eq_dec Bool.bool_dec (path x) (path n)) as [Q|Q].
        -- destruct (nt t (path x)) as [y|] eqn:Ey; [|discriminate]. cbn in E. injection E as <-.
           destruct (wf_nt [] t _ y (proj1 T) Ey) as [Wy Py]. cbn [app] in Py.
           exists y. split; [|apply H, stored_path; auto; now rewrite Py].
           fold (g y). unfold g. replace (same_block n y) with true; auto. symmetry. apply same_block_iff; auto. congruence.
        -- exists x. apply stored_path in E; auto. apply H in E. split; auto.
           unfold g. destruct (same_block n x) eqn:Sb; auto. exfalso. apply same_block_iff in Sb; auto; congruence.
      * intros (y & <- & I). fold (g y). rewrite Gp. pose proof I as I'. apply H, stored_path in I'; auto. rewrite I'.
        destruct (list_eq_dec Bool.bool_dec (path y) (path n)) as [Q|Q].
        -- cbn. f_equal. unfold g. replace (same_block n y) with true; auto. symmetry. apply same_block_iff; auto.
        -- f_equal. unfold g. destruct (same_block n y) eqn:Sb; auto. exfalso. apply same_block_iff in Sb; auto; congruence.
Qed.

Lemma wrun_set ctz0 held os : forall t S, tree_ok t -> in_step t S -> Forall wop_ok os -> Forall not_cleanup os ->
  exists t', wrun ctz0 held t os = Ok (t', snd (set_run S os)) /\ tree_ok t' /\ in_step t' (fst (set_run S os)).
Proof.
  induction os as [|o os IH]; intros t S T I O C; cbn [wrun set_run].
  - exists t. auto.
  - inversion O; inversion C; subst.
    destruct (wstep_set ctz0 held t S o T I) as (t1 & E1 & T1 & I1); auto. rewrite E1. cbn [bind].
    destruct (set_step S o) as [S1 r1]. cbn [fst snd] in *.
    destruct (IH t1 S1 T1 I1) as (t2 & E2 & T2 & I2); auto. rewrite E2. cbn [bind].
    destruct (set_run S1 os) as [S2 rs]. exists t2. auto.
Qed.

Lemma history_set ctz0 held os : Forall wop_ok os -> Forall not_cleanup os ->
  exists t rs, wrun ctz0 held tree_new os = Ok (t, rs) /\
    rs = snd (set_run [] os) /\ Permutation (stored t) (fst (set_run [] os)).
Proof.
  intros O C. destruct (wrun_set ctz0 held os tree_new [] tree_new_ok) as (t & E & _ & [P _]); auto.
  - split; [apply perm_nil|constructor].
  - exists t, (snd (set_run [] os)). auto.
Qed.

(** ** the clean-up *)
Lemma msb_128_length v : length (msb 128 v) = 128%nat.
Proof. apply msb_length. Qed.

Lemma at3_attributes x : at3 x = attributes x.
Proof. reflexivity. Qed.

Lemma sem_most_specific t v a : tree_ok t -> v < 2 ^ 128 ->
  sem t (msb 128 v) None = Some a <-> exists x, most_specific (stored t) v x /\ attributes x = a.
Proof.
  intros T V. rewrite sem_spec. pose proof (proj1 T) as W. split.
  - intros [(r & x & P & E & A & U)|[_ ?]]; [|discriminate].
    destruct (wf_nt [] t r x W E) as [Wx Px]. cbn [app] in Px. exists x. split; auto.
    split; [apply stored_nt; eauto|]. split; [apply member_inb, inb_path; auto; now rewrite Px|].
    intros y I M. apply stored_path in I; auto. destruct (wf_nt [] t _ y W I) as [Wy _].
    apply member_inb, inb_path in M; auto. rewrite <- !path_length, Px.
    destruct (le_lt_dec (length (path y)) (length r)) as [|G]; auto. rewrite (U _ M G) in I. discriminate.
  - intros (x & (I & M & U) & A). left. apply stored_path in I; auto.
    destruct (wf_nt [] t _ x W I) as [Wx _]. exists (path x), x.
    split; [apply inb_path; auto; now apply member_inb|]. split; auto. split; auto.
    intros r P L. destruct (nt t r) as [y|] eqn:E; auto. exfalso.
    destruct (wf_nt [] t r y W E) as [Wy Py]. cbn [app] in Py.
    specialize (U y). rewrite <- !path_length, Py in U.
    assert (length r <= length (path x))%nat; [|lia]. apply U; [apply stored_nt; eauto|].
    apply member_inb, inb_path; auto. now rewrite Py.
Qed.

(** completeness in terms of [near] *)
Lemma complete_near F p : forall t c x, complete F c t -> nt t p = Some x -> n_family x <> F ->
  (forall r y, pre r p -> r <> p -> nt t r = Some y -> n_family y <> F) ->
  same (near t p c) x = false.
Proof.
  induction p as [|b p IH]; intros t c x C N Fx U.
  - destruct t as [|d n z o]; [discriminate|]. cbn in N. subst n. cbn [complete near] in *.
    destruct (family_eqb F (n_family x)) eqn:E; [apply family_eqb_eq in E; congruence|]. apply C.
  - destruct t as [|d n z o]; [unfold nt in N; now rewrite sub_nil in N|]. rewrite nt_cons in N. cbn [near].
    assert (U' : forall r y, pre r p -> r <> p -> nt (if b then o else z) r = Some y -> n_family y <> F).
    { intros r y [s ->] D E. apply U with (b :: r); auto; [now exists s|]. intros Q. apply D. now injection Q. }
    apply IH; auto. cbn [complete] in C. destruct n as [y|]; [|destruct b; tauto].
    destruct (family_eqb F (n_family y)) eqn:E; [|destruct b; tauto].
    exfalso. apply family_eqb_eq in E. apply (U [] y); auto; [now exists (b :: p)|discriminate].
Qed.

Lemma encloses_path y x : net_wf y -> net_wf x -> encloses y x <-> pre (path y) (path x) /\ path y <> path x.
Proof.
  intros Wy Wx. unfold encloses. rewrite <- subnet_path by auto. rewrite is_subnet_incl by auto. split.
  - intros [L I]. split; auto. intros E. rewrite <- (path_length y), E, path_length in L. lia.
  - intros [I D]. split; auto. rewrite <- !path_length.
    assert (P : pre (path y) (path x)) by (apply subnet_path; auto; now apply is_subnet_incl).
    pose proof (pre_length _ _ P). destruct (Nat.eq_dec (length (path y)) (length (path x))); [|lia].
    exfalso. apply D, pre_antisym; auto. lia.
Qed.

Lemma v4_inside_v4 y x : net_wf y -> net_wf x -> encloses y x -> n_family y = AF_INET -> n_family x = AF_INET.
Proof.
  intros Wy Wx [_ I] F. rewrite (w_family y Wy) in F. rewrite (w_family x Wx).
  destruct (mappedb (lo y)) eqn:M; [|discriminate].
  now rewrite (split_mapped_4 y (lo x) Wy M (I _ (inb_lo x Wx))).
Qed.

Lemma closest_near t x y : tree_ok t -> In x (stored t) ->
  (forall z, In z (stored t) -> encloses z x -> n_family z = n_family x) ->
  closest (stored t) x y -> near t (path x) None = Some y.
Proof.
  intros T I Fz (Iy & Fy & Ey & U). pose proof (proj1 T) as W.
  pose proof (stored_wf t x T I) as Wx. pose proof (stored_wf t y T Iy) as Wy.
  apply encloses_path in Ey as [P D]; auto. apply stored_path in Iy; auto.
  pose proof (near_spec t (path x)) as NS. destruct (near t (path x) None) as [z|].
  - destruct NS as (r & Pr & Dr & Nr & Ur). destruct (wf_nt [] t r z W Nr) as [Wz Pz]. cbn [app] in Pz.
    assert (Iz : In z (stored t)) by (apply stored_nt; eauto).
    assert (Ez : encloses z x) by (apply encloses_path; auto; rewrite Pz; auto).
    specialize (U z Iz (Fz z Iz Ez) Ez). rewrite <- !path_length, Pz in U.
    destruct (le_lt_dec (length (path y)) (length r)) as [G|G].
    + assert (r = path y) as ->; [|congruence]. symmetry. apply pre_antisym; [|lia].
      apply pre_comparable with (path x); auto.
    + rewrite (Ur _ P D G) in Iy. discriminate.
  - rewrite (NS _ P D) in Iy. discriminate.
Qed.

(** results do not depend on who holds references *)
Lemma walk_mono {S} flt (cb cb' : network -> tree -> S -> outcome (tree * S)) :
  (forall x t s r, cb x t s = Ok r -> cb' x t s = Ok r) ->
  forall fuel p t s r, walk flt cb p t s fuel = Ok r -> walk flt cb' p t s fuel = Ok r.
Proof.
  intros H. induction fuel as [|fuel IH]; intros p t s r E; [discriminate|]. cbn [walk] in *.
  assert (Child : forall b t s r,
    match sub t (p ++ [b]) with Nil => Ok (t, s) | Node _ _ _ _ => walk flt cb (p ++ [b]) t s fuel end = Ok r ->
    match sub t (p ++ [b]) with Nil => Ok (t, s) | Node _ _ _ _ => walk flt cb' (p ++ [b]) t s fuel end = Ok r).
  { intros b t1 s1 r1. destruct (sub t1 (p ++ [b])); auto. }
  assert (Descend : forall t s r,
    (do (t, s) <- match sub t (p ++ [false]) with Nil => Ok (t, s) | Node _ _ _ _ => walk flt cb (p ++ [false]) t s fuel end;
     match sub t (p ++ [true]) with Nil => Ok (t, s) | Node _ _ _ _ => walk flt cb (p ++ [true]) t s fuel end) = Ok r ->
    (do (t, s) <- match sub t (p ++ [false]) with Nil => Ok (t, s) | Node _ _ _ _ => walk flt cb' (p ++ [false]) t s fuel end;
     match sub t (p ++ [true]) with Nil => Ok (t, s) | Node _ _ _ _ => walk flt cb' (p ++ [true]) t s fuel end) = Ok r).
  { intros t1 s1 r1 E1.
    destruct (match sub t1 (p ++ [false]) with Nil => Ok (t1, s1) | Node _ _ _ _ => walk flt cb (p ++ [false]) t1 s1 fuel end)
      as [[t2 s2]| | |] eqn:Q; try discriminate.
    apply Child in Q. rewrite Q. cbn [bind] in *. now apply Child. }
  destruct (sub t p) as [|[] [x|] z o]; auto. destruct (flt x); auto.
  destruct (cb x t s) as [[t1 s1]| | |] eqn:Q; try discriminate. rewrite (H _ _ _ _ Q). cbn [bind] in *. auto.
Qed.

Section Mono.
Variables (ctz0 : nat) (held held' : network -> bool).
Hypothesis Hh : forall x, held x = true -> held' x = true.

Lemma merge_loop_mono rec rec' x : (forall m t l r, rec m t l = Ok r -> rec' m t l = Ok r) ->
  forall k t l r, merge_loop ctz0 rec x t l k = Ok r -> merge_loop ctz0 rec' x t l k = Ok r.
Proof.
  intros H. induction k as [|k IH]; intros t l r E; cbn [merge_loop] in *; auto.
  destruct (list_get l k) as [[n|]| | |]; try discriminate. cbn [bind] in *.
  destruct (network_merge ctz0 n x) as [[m|]| | |]; try discriminate; cbn [bind] in *.
  - destruct (tree_add t m) as [t1 r1]. destruct (r1 =? -EBUSY)%Z; auto.
    destruct (list_push l m) as [l1| | |]; try discriminate. cbn [bind] in *.
    destruct (list_remove l1 n) as [l2| | |]; try discriminate. cbn [bind] in *.
    destruct (rec m _ l2) as [[t2 l3]| | |] eqn:Q; try discriminate. apply H in Q. rewrite Q. exact E.
  - destruct (list_push l x) as [l1| | |]; try discriminate. cbn [bind] in *. auto.
Qed.

Lemma merge_step_mono fuel : forall own x t l r,
  merge_step ctz0 held own x t l fuel = Ok r -> merge_step ctz0 held' own x t l fuel = Ok r.
Proof.
  induction fuel as [|fuel IH]; intros own x t l r E; [discriminate|]. cbn [merge_step] in *.
  destruct (list_empty l); auto.
  destruct (merge_loop ctz0 (fun m t l => merge_step ctz0 held true m t l fuel) x t l (nsize l)) as [[[t1 l1] e]| | |] eqn:Q;
    try discriminate.
  rewrite (merge_loop_mono _ (fun m t l => merge_step ctz0 held' true m t l fuel) x (fun m t l r => IH true m t l r) _ _ _ _ Q).
  cbn [bind] in *. destruct e; auto. unfold alive in *. destruct own; auto.
  destruct (held x) eqn:Hx; [now rewrite (Hh x Hx)|]. destruct (held' x); [|exact E].
  destruct (net_of (sub t1 (path x))); cbn [bind] in *; auto.
  destruct (list_contains l1 x) as [[]| | |]; try discriminate. exact E.
Qed.

Lemma cleanup_mono t r : cleanup ctz0 held t = Ok r -> cleanup ctz0 held' t = Ok r.
Proof.
  unfold cleanup. destruct (dedup t) as [t1| | |]; cbn [bind]; try discriminate. unfold merge, tree_walk.
  destruct (walk _ (fun x t l => merge_step ctz0 held false x t l 130) [] t1 list_new 129) as [[t2 l2]| | |] eqn:Q;
    try discriminate.
  rewrite (walk_mono _ _ (fun x t l => merge_step ctz0 held' false x t l 130)
    (fun x t s r => merge_step_mono 130 false x t s r) _ _ _ _ _ Q). exact (fun E => E).
Qed.
End Mono.

(** keep conversion from evaluating the walk *)
Local Opaque cleanup.

Lemma cleanup_facts ctz0 held t t' : tree_ok t -> cleanup ctz0 held t = Ok t' ->
  tree_ok t' /\ clean t' /\
    (forall bits, length bits = 128%nat -> sem t' bits None = sem t bits None) /\
    complete AF_INET6 None t' /\ complete AF_INET None t' /\
    (forall w r' y', length w = 128%nat -> pre r' w -> nt t' r' = Some y' -> n_family y' = AF_INET6 ->
      exists r y, pre r w /\ nt t r = Some y /\ n_family y = AF_INET6) /\
    (flat t -> flat t').
Proof.
  intros T E. apply (cleanup_mono ctz0 held (fun _ => true)) in E; auto.
  destruct (cleanup_spec ctz0 (fun _ => true) t T ltac:(auto)) as (t2 & E2 & R). rewrite E in E2. injection E2 as <-. exact R.
Qed.

Lemma wstep_ok ctz0 held t o t' r : tree_ok t -> wop_ok o -> wstep ctz0 held t o = Ok (t', r) -> tree_ok t'.
Proof.
  intros T O Q. destruct o as [n|n a|].
  - injection Q as Q. apply valid_net_wf in O. pose proof (tree_add_spec t n T O) as A.
    destruct (nt t (path n)); [rewrite A in Q; injection Q as <- _; auto|].
    destruct A as (t3 & A & T3 & _). rewrite A in Q. injection Q as <- _. auto.
  - injection Q as <- _. destruct O as [_ O]. now apply change_spec.
  - unfold wstep in Q. destruct (cleanup ctz0 held t) as [t3| | |] eqn:C; try discriminate Q.
    injection Q as <- _. exact (proj1 (cleanup_facts ctz0 held t t3 T C)).
Qed.

Lemma wrun_ok ctz0 held os : forall t t' rs, tree_ok t -> Forall wop_ok os -> wrun ctz0 held t os = Ok (t', rs) -> tree_ok t'.
Proof.
  induction os as [|o os IH]; intros t t' rs T O E; cbn [wrun] in E.
  - injection E as <- _. auto.
  - inversion O; subst. destruct (wstep ctz0 held t o) as [[t1 r1]| | |] eqn:Q; try discriminate. cbn [bind] in E.
    destruct (wrun ctz0 held t1 os) as [[t2 r2]| | |] eqn:Q2; try discriminate. cbn [bind] in E. injection E as <- _.
    apply (IH t1 t2 r2); auto. now apply (wstep_ok ctz0 held t o t1 r1).
Qed.

Lemma cleanup_stored ctz0 held os t rs t' : Forall wop_ok os -> wrun ctz0 held tree_new os = Ok (t, rs) ->
  cleanup ctz0 held t = Ok t' ->
  (forall y, In y (stored t') -> n_prefix y = 128%nat -> In y (stored t)) /\
  (forall y, In y (stored t) -> exists z, In z (stored t') /\ attributes z = attributes y /\ forall v, member y v -> member z v) /\
  (forall z v, In z (stored t') -> member z v -> exists y, In y (stored t) /\ attributes y = attributes z /\ member y v).
Proof.
  intros O E C. pose proof (wrun_ok ctz0 held os _ _ _ tree_new_ok O E) as T.
  destruct (cleanup_facts ctz0 held t t' T C) as (T' & _).
  apply (cleanup_mono ctz0 held (fun _ => true)) in C; auto.
  destruct (cleanup_covers ctz0 (fun _ => true) t T ltac:(auto)) as (t2 & E2 & R1 & R2 & R3 & _). rewrite C in E2. injection E2 as <-.
  split; [|split].
  - intros y I P. apply (stored_path t' y T') in I. apply stored_nt. exists (path y). apply R1; auto. rewrite <- P. apply path_length.
  - intros y I. pose proof (stored_wf _ _ T I) as Wy. apply (stored_path t y T) in I. destruct (R2 _ _ I) as (r & z & P & N & A).
    assert (Iz : In z (stored t')) by (apply stored_nt; eauto). pose proof (stored_wf _ _ T' Iz) as Wz.
    apply (stored_path t' z T') in Iz as Pz. exists z. split; auto. split; [exact A|]. intros v M.
    apply member_inb in M. apply member_inb.
    pose proof (wf_nt [] _ _ _ (proj1 T') N) as [_ Q]. cbn [app] in Q.
    assert (V : v < 2 ^ 128) by (apply N.le_lt_trans with (hi y); [apply M|now apply hi_bound]).
    apply inb_path; auto. apply inb_path in M; auto. rewrite Q. eapply pre_trans; eauto.
  - intros z v I M. pose proof (stored_wf _ _ T' I) as Wz. apply (stored_path t' z T') in I. apply member_inb in M.
    assert (V : v < 2 ^ 128) by (apply N.le_lt_trans with (hi z); [apply M|now apply hi_bound]).
    apply inb_path in M; auto. destruct (R3 (msb 128 v) (path z) z (msb_128_length v) M I) as (r & y & P & N & A).
    assert (Iy : In y (stored t)) by (apply stored_nt; eauto). pose proof (stored_wf _ _ T Iy) as Wy.
    exists y. split; auto. split; [exact A|]. apply member_inb, inb_path; auto.
    pose proof (wf_nt [] _ _ _ (proj1 T) N) as [_ Q]. cbn [app] in Q. now rewrite Q.
Qed.

(** every network of the cleaned tree is made of networks of its family inside it *)
Lemma cleanup_pieces ctz0 held os t rs t' : Forall wop_ok os -> wrun ctz0 held tree_new os = Ok (t, rs) ->
  cleanup ctz0 held t = Ok t' ->
  forall z v, In z (stored t') -> member z v ->
  exists y, In y (stored t) /\ n_family y = n_family z /\ attributes y = attributes z /\ member y v /\
    (n_prefix z <= n_prefix y)%nat /\ forall u, member y u -> member z u.
Proof.
  intros O E C z v I M. pose proof (wrun_ok ctz0 held os _ _ _ tree_new_ok O E) as T.
  destruct (cleanup_facts ctz0 held t t' T C) as (T' & _).
  apply (cleanup_mono ctz0 held (fun _ => true)) in C; auto.
  destruct (cleanup_covers ctz0 (fun _ => true) t T ltac:(auto)) as (t2 & E2 & _ & _ & _ & R). rewrite C in E2. injection E2 as <-.
  pose proof (stored_wf _ _ T' I) as Wz. apply (stored_path t' z T') in I. apply member_inb in M.
  assert (V : v < 2 ^ 128) by (apply N.le_lt_trans with (hi z); [apply M|now apply hi_bound]).
  apply inb_path in M; auto.
  destruct (built_at t _ _ (path z) (msb 128 v) T (R _ _ I) (msb_128_length v) M) as (r & y & P1 & P2 & Ny & Fy & Ay).
  assert (Iy : In y (stored t)) by (apply stored_nt; eauto). pose proof (stored_wf _ _ T Iy) as Wy.
  pose proof (wf_nt [] _ _ _ (proj1 T) Ny) as [_ Q]. cbn [app] in Q.
  exists y. split; auto. split; auto. split; [exact Ay|]. split; [apply member_inb, inb_path; auto; now rewrite Q|].
  split; [rewrite <- !path_length, Q; now apply pre_length|].
  intros u Mu. apply member_inb in Mu. apply member_inb.
  assert (U : u < 2 ^ 128) by (apply N.le_lt_trans with (hi y); [apply Mu|now apply hi_bound]).
  apply inb_path; auto. apply inb_path in Mu; auto. rewrite Q in Mu. eapply pre_trans; eauto.
Qed.

Lemma cleanup_attributes ctz0 held os t rs t' : Forall wop_ok os -> wrun ctz0 held tree_new os = Ok (t, rs) ->
  cleanup ctz0 held t = Ok t' ->
  forall v a, v < 2 ^ 128 ->
  (exists x, most_specific (stored t) v x /\ attributes x = a) <->
  (exists x, most_specific (stored t') v x /\ attributes x = a).
Proof.
  intros O E C v a V. pose proof (wrun_ok ctz0 held os _ _ _ tree_new_ok O E) as T.
  destruct (cleanup_facts ctz0 held t t' T C) as (T' & _ & S & _).
  rewrite <- !sem_most_specific by auto. rewrite S by apply msb_128_length. reflexivity.
Qed.

Lemma cleanup_dedup ctz0 held os t rs t' : Forall wop_ok os -> wrun ctz0 held tree_new os = Ok (t, rs) ->
  cleanup ctz0 held t = Ok t' ->
  forall x y, In x (stored t') -> closest (stored t') x y ->
  n_family x = AF_INET6 \/ (forall z, In z (stored t) -> n_family z = AF_INET6 -> ~ (forall v, member x v -> member z v)) ->
  attributes x <> attributes y.
Proof.
  intros O E C x y I Cl Fx A. pose proof (wrun_ok ctz0 held os _ _ _ tree_new_ok O E) as T.
  destruct (cleanup_facts ctz0 held t t' T C) as (T' & _ & _ & C6 & C4 & V6 & _). clear C E O.
  pose proof (stored_wf t' x T' I) as Wx.
  assert (Hz : forall z, In z (stored t') -> encloses z x -> n_family z = n_family x).
  { intros z Iz Ez. pose proof (stored_wf t' z T' Iz) as Wz. destruct (n_family x) eqn:F.
    - destruct Fx as [Fx|Fx]; [discriminate|]. destruct (n_family z) eqn:Fz; auto. exfalso.
      apply encloses_path in Ez as [P D]; auto. apply stored_path in Iz; auto.
      destruct (V6 (msb 128 (lo x)) (path z) z (msb_128_length _)) as (r & w & Pw & Nw & Fw); auto.
      { apply pre_trans with (path x); auto. now apply path_pre_lo. }
      destruct (wf_nt [] t r w (proj1 T) Nw) as [Ww Pr]. cbn [app] in Pr.
      apply (Fx w); auto; [apply stored_nt; eauto|].
      (* w contains the first address of x and, being IPv6, is the larger one *)
      assert (IL : inb w (lo x)). { apply inb_path; auto; [now apply lo_bound|]. now rewrite Pr. }
      destruct (le_lt_dec (n_prefix w) (n_prefix x)) as [G|G].
      + intros v Mv. apply (nest w x (lo x)); auto. now apply inb_lo.
      + exfalso. assert (inb x (lo w)).
        { apply (nest x w (lo x)); auto; [now apply inb_lo|lia|now apply inb_lo]. }
        rewrite (w_family x Wx) in F. rewrite (w_family w Ww) in Fw.
        destruct (mappedb (lo x)) eqn:M; [|discriminate].
        rewrite (split_mapped_4 x (lo w) Wx M) in Fw; [discriminate|auto].
    - destruct (n_family z) eqn:Fz; auto. rewrite (v4_inside_v4 z x) in F; auto. }
  pose proof (closest_near t' x y T' I Hz Cl) as N.
  assert (Si : same (near t' (path x) None) x = false).
  { assert (Hr : forall r z, pre r (path x) -> r <> path x -> nt t' r = Some z -> n_family z = n_family x).
    { intros r z P D Nz. destruct (wf_nt [] t' r z (proj1 T') Nz) as [Wz Pz]. cbn [app] in Pz.
      apply Hz; [apply stored_nt; eauto|]. apply encloses_path; auto. now rewrite Pz. }
    pose proof I as I'. apply stored_path in I'; auto.
    destruct (n_family x) eqn:F.
    - apply (complete_near AF_INET6); auto; [congruence|]. intros r z P D Nz. rewrite (Hr r z P D Nz). discriminate.
    - apply (complete_near AF_INET); auto; [congruence|]. intros r z P D Nz. rewrite (Hr r z P D Nz). discriminate. }
  rewrite N in Si. cbn [same] in Si. assert (Q : same_attrs y x) by (apply at3_iff; now rewrite !at3_attributes).
  apply properties_cmp_0 in Q. congruence.
Qed.

Lemma cleanup_defined ctz0 held t : tree_ok t ->
  (forall x, held x = true) \/
  (forall n x, In n (stored t) -> In x (stored t) -> network_merge ctz0 n x = Ok None) ->
  exists t', cleanup ctz0 held t = Ok t'.
Proof.
  intros T Sf. destruct (cleanup_spec ctz0 held t T) as (t' & E & _); [|eauto].
  destruct Sf as [Sf|Sf]; auto. right. intros n x p r Hn Hx. apply Sf; apply stored_nt; eauto.
Qed.

Lemma wrun_defined ctz0 os : forall t, tree_ok t -> Forall wop_ok os ->
  exists t' rs, wrun ctz0 (fun _ => true) t os = Ok (t', rs).
Proof.
  induction os as [|o os IH]; intros t T O; cbn [wrun].
  - eauto.
  - inversion O; subst. assert (E : exists t1 r1, wstep ctz0 (fun _ => true) t o = Ok (t1, r1)).
    { destruct o as [n|n a|]; cbn [wstep].
      - destruct (tree_add t n); eauto.
      - eauto.
      - destruct (cleanup_defined ctz0 (fun _ => true) t T) as (t' & ->); auto. cbn. eauto. }
    destruct E as (t1 & r1 & E). rewrite E. cbn [bind].
    assert (T1 : tree_ok t1).
    { apply (wrun_ok ctz0 (fun _ => true) [o] t t1 [r1] T); [now constructor|]. cbn [wrun]. now rewrite E. }
    destruct (IH t1 T1 H2) as (t2 & rs & E2). rewrite E2. cbn. eauto.
Qed.

(** networks for the examples *)
Definition net_of_addr (a : addr) (p : N) (at_ : cc2 * N * N) : network :=
  match network_new a p with Ok n => with_attributes n at_ | _ => dnet end.

Lemma net_of_addr_valid a p at_ : is_addr a -> attributes_ok at_ ->
  match network_new a p with Ok _ => true | _ => false end = true -> valid_network (net_of_addr a p at_).
Proof.
  intros A O E. unfold net_of_addr. destruct (network_new a p) as [n| | |] eqn:Q; try discriminate.
  apply valid_net_wf, with_attributes_wf; auto.
  pose proof (network_new_spec a p A) as H. destruct (p <=? low_bits (val a)).
  - destruct H as (n' & E' & W & _). rewrite Q in E'. injection E' as <-. exact W.
  - congruence.
Qed.

Lemma cleanup_finishes ctz0 os : Forall wop_ok os ->
  exists t rs, wrun ctz0 (fun _ => true) tree_new os = Ok (t, rs) /\
  exists t', cleanup ctz0 (fun _ => true) t = Ok t'.
Proof.
  intros O. destruct (wrun_defined ctz0 os tree_new tree_new_ok O) as (t & rs & E). exists t, rs. split; auto.
  apply cleanup_defined; auto. exact (wrun_ok _ _ _ _ _ _ tree_new_ok O E).
Qed.

Lemma cleanup_safe ctz0 held os t rs :
  Forall wop_ok os -> wrun ctz0 held tree_new os = Ok (t, rs) ->
  (forall x, held x = true) \/
  (forall n x, In n (stored t) -> In x (stored t) -> network_merge ctz0 n x = Ok None) ->
  exists t', cleanup ctz0 held t = Ok t'.
Proof. intros O E. apply cleanup_defined. exact (wrun_ok _ _ _ _ _ _ tree_new_ok O E). Qed.
