(** The network tree as a map from bit strings to networks. *)
From Coq Require Import NArith ZArith List Bool Arith Lia ZifyBool ZifyNat ZifyN.
From Verif Require Import Base LemmasBase ModelAddress LemmasAddress ModelCountryCode ModelNetwork
  LemmasNetwork ModelNetworkList LemmasNetworkList ModelTree LemmasPath.
Import ListNotations.
Open Scope N_scope.

(** nodes below [q] *)
Fixpoint wf_at (q : list bool) (t : tree) : Prop :=
  match t with
  | Nil => True
  | Node d n z o =>
      (length q <= 128)%nat /\ (d = true -> n = None /\ z = Nil /\ o = Nil) /\
      (forall x, n = Some x -> net_wf x /\ path x = q) /\
      wf_at (q ++ [false]) z /\ wf_at (q ++ [true]) o
  end.

Definition live (t : tree) : Prop := match t with Node false _ _ _ => True | _ => False end.

(** the tree objects that occur *)
Definition tree_ok (t : tree) : Prop := wf_at [] t /\ live t.

Definition nt (t : tree) (r : list bool) : option network := net_of (sub t r).

Fixpoint repl (t : tree) (p : list bool) (s : tree) {struct p} : tree :=
  match p with
  | [] => s
  | b :: p' =>
      match t with
      | Nil => Nil
      | Node d n z o => if b then Node d n z (repl o p' s) else Node d n (repl z p' s) o
      end
  end.

Lemma sub_nil p : sub Nil p = Nil.
Proof. now destruct p. Qed.

Lemma sub_app t p q : sub t (p ++ q) = sub (sub t p) q.
Proof.
  revert t. induction p as [|b p IH]; intros t; cbn [sub app]; auto.
  destruct t; [symmetry; apply sub_nil|apply IH].
Qed.

Lemma sub_pre t p q : sub t (p ++ q) <> Nil -> sub t p <> Nil.
Proof. rewrite sub_app. intros H E. apply H. now rewrite E, sub_nil. Qed.

Lemma wf_sub p : forall q t, wf_at q t -> wf_at (q ++ p) (sub t p).
Proof.
  induction p as [|b p IH]; intros q t H; cbn [sub]; [now rewrite app_nil_r|].
  destruct t as [|d n z o]; cbn [wf_at]; auto.
  replace (q ++ b :: p) with ((q ++ [b]) ++ p) by now rewrite <- app_assoc.
  apply IH. destruct b; apply H.
Qed.

Lemma wf_nt q t p x : wf_at q t -> nt t p = Some x -> net_wf x /\ path x = q ++ p.
Proof.
  intros H E. apply wf_sub with (p := p) in H. unfold nt in E. destruct (sub t p) as [|d n z o]; [discriminate|].
  cbn in E. subst n. destruct H as (_ & _ & H & _). now apply H.
Qed.

Lemma wf_len q t p : wf_at q t -> sub t p <> Nil -> (length (q ++ p) <= 128)%nat.
Proof. intros H E. apply wf_sub with (p := p) in H. destruct (sub t p); [congruence|]. apply H. Qed.

Lemma wf_live q t p x : wf_at q t -> nt t p = Some x -> live (sub t p).
Proof.
  intros H E. apply wf_sub with (p := p) in H. unfold nt in E. destruct (sub t p) as [|d n z o]; [discriminate|].
  cbn in E. subst n. destruct H as (_ & H & _). destruct d; cbn; auto. destruct (H eq_refl) as [? _]. discriminate.
Qed.

Lemma wf_inner_live q t p b r : wf_at q t -> sub t (p ++ b :: r) <> Nil -> live (sub t p).
Proof.
  intros H E. apply wf_sub with (p := p) in H. rewrite sub_app in E.
  destruct (sub t p) as [|d n z o]; [now rewrite sub_nil in E|]. destruct H as (_ & H & _).
  destruct d; cbn; auto. destruct (H eq_refl) as (_ & -> & ->). cbn [sub] in E.
  destruct b; now rewrite sub_nil in E.
Qed.

Lemma at_path_repl f p : forall q t, wf_at q t -> live (sub t p) ->
  at_path t p f = repl t p (f (sub t p)).
Proof.
  induction p as [|b p IH]; intros q t H L; cbn [at_path sub repl]; auto.
  destruct t as [|d n z o]; auto. cbn [sub] in L.
  assert (V : visit (if b then o else z) = if b then o else z).
  { assert (W : wf_at (q ++ [b]) (if b then o else z)) by (destruct b; apply H).
    destruct p as [|b' p]; cbn [sub] in L.
    - destruct (if b then o else z) as [|[] ? ? ?]; cbn in *; auto; tauto.
    - assert (live (if b then o else z)).
      { apply (wf_inner_live (q ++ [b]) (if b then o else z) [] b' p W).
        cbn [app sub]. intros E. cbn [sub] in L. rewrite E in L. exact L. }
      destruct (if b then o else z) as [|[] ? ? ?]; cbn in *; auto; tauto. }
  destruct b; rewrite V; f_equal; eapply IH; eauto; apply H.
Qed.

Lemma sub_repl_under t p s r : sub t p <> Nil -> sub (repl t p s) (p ++ r) = sub s r.
Proof.
  revert t. induction p as [|b p IH]; intros t H; cbn [repl app sub]; auto.
  destruct t as [|d n z o]; [now rewrite sub_nil in H|]. cbn [sub] in H. destruct b; cbn [sub]; now apply IH.
Qed.

Lemma sub_repl t p s : sub t p <> Nil -> sub (repl t p s) p = s.
Proof. intros H. pose proof (sub_repl_under t p s [] H) as E. now rewrite app_nil_r in E. Qed.

Lemma repl_repl t p s r s' : sub t p <> Nil -> repl (repl t p s) (p ++ r) s' = repl t p (repl s r s').
Proof.
  revert t. induction p as [|b p IH]; intros t H; cbn [repl app sub]; auto.
  destruct t as [|d n z o]; [now rewrite sub_nil in H|]. cbn [sub] in H. destruct b; cbn [repl]; f_equal; now apply IH.
Qed.

Lemma repl_same t p : repl t p (sub t p) = t.
Proof.
  revert t. induction p as [|b p IH]; intros t; cbn [repl sub]; auto.
  destruct t as [|d n z o]; auto. destruct b; now rewrite IH.
Qed.

Lemma nt_repl_out t p s r : ~ pre p r -> nt (repl t p s) r = nt t r.
Proof.
  revert t r. unfold nt. induction p as [|b p IH]; intros t r H.
  - exfalso. apply H. now exists r.
  - cbn [repl]. destruct t as [|d n z o]; auto. destruct r as [|c r]; cbn [sub].
    + now destruct b.
    + destruct (Bool.bool_dec b c) as [->|D].
      * destruct c; cbn [sub]; apply IH; intros [y ->]; apply H; now exists y.
      * destruct b, c; cbn [sub]; auto; congruence.
Qed.

Lemma nt_repl_under t p s r : sub t p <> Nil -> nt (repl t p s) (p ++ r) = nt s r.
Proof. intros H. unfold nt. now rewrite sub_repl_under. Qed.

Lemma wf_repl p : forall q t s, wf_at q t -> sub t p <> Nil -> wf_at (q ++ p) s -> wf_at q (repl t p s).
Proof.
  induction p as [|b p IH]; intros q t s H E W; cbn [repl sub] in *; [now rewrite app_nil_r in W|].
  destruct t as [|d n z o]; cbn [wf_at]; auto.
  pose proof (wf_inner_live q (Node d n z o) [] b p H E) as L.
  replace (q ++ b :: p) with ((q ++ [b]) ++ p) in W by now rewrite <- app_assoc.
  destruct d; [destruct L|]. destruct H as (H1 & H2 & H3 & H4 & H5).
  destruct b; cbn [wf_at]; split; auto; (split; [discriminate|]); (split; [auto|]); split; auto; apply IH; auto.
Qed.

Lemma live_repl t p s : live t -> (p = [] -> live s) -> live (repl t p s).
Proof. intros H E. destruct p as [|b p]; cbn [repl]; auto. destruct t as [|[] ? ? ?]; [destruct H|destruct H|].
  destruct b; exact I. Qed.

(** every node stays *)
Definition ext (t t' : tree) : Prop := forall r, sub t r <> Nil -> sub t' r <> Nil.

Lemma ext_refl t : ext t t.
Proof. now intros r. Qed.
Lemma ext_trans t t' t'' : ext t t' -> ext t' t'' -> ext t t''.
Proof. intros H1 H2 r H. now apply H2, H1. Qed.

Lemma ext_repl t p s : ext (sub t p) s -> ext t (repl t p s).
Proof.
  revert t. induction p as [|b p IH]; intros t H r E; cbn [repl sub] in *; auto.
  destruct t as [|d n z o]; auto. destruct r as [|c r]; cbn [sub] in *.
  - now destruct b.
  - specialize (IH (if b then o else z) H). destruct b, c; cbn [sub] in *; auto; now apply IH.
Qed.

(** ** which network an address finds *)
Definition at3 (n : network) : cc2 * N * N := (n_cc n, n_asn n, n_flags n).

Lemma at3_iff n m : same_attrs n m <-> at3 n = at3 m.
Proof.
  unfold same_attrs, at3. split.
  - intros (-> & -> & ->). reflexivity.
  - intros E. injection E as -> -> ->. auto.
Qed.

Definition at_opt (x : option network) (acc : option (cc2 * N * N)) : option (cc2 * N * N) :=
  match x with Some n => Some (at3 n) | None => acc end.

Fixpoint sem (t : tree) (bits : list bool) (acc : option (cc2 * N * N)) : option (cc2 * N * N) :=
  match t with
  | Nil => acc
  | Node _ n z o =>
      match bits with
      | [] => at_opt n acc
      | b :: bits' => sem (if b then o else z) bits' (at_opt n acc)
      end
  end.

Lemma sem_repl p : forall t s bits acc, (forall bits acc, sem s bits acc = sem (sub t p) bits acc) ->
  sem (repl t p s) bits acc = sem t bits acc.
Proof.
  induction p as [|b p IH]; intros t s bits acc H; cbn [repl sub] in *; auto.
  destruct t as [|d n z o]; auto.
  destruct bits as [|c bits]; [now destruct b|].
  destruct b, c; cbn [sem]; auto.
Qed.

Lemma nt_cons d n z o b r : nt (Node d n z o) (b :: r) = nt (if b then o else z) r.
Proof. reflexivity. Qed.

(** the result comes from the longest stored prefix of the bits *)
Lemma sem_spec bits : forall t acc a, sem t bits acc = Some a <->
  (exists r x, pre r bits /\ nt t r = Some x /\ at3 x = a /\
     (forall r', pre r' bits -> (length r < length r')%nat -> nt t r' = None)) \/
  ((forall r, pre r bits -> nt t r = None) /\ acc = Some a).
Proof.
  induction bits as [|b bits IH]; intros t acc a.
  - assert (P : forall r, pre r [] <-> r = []).
    { intros r. split; [intros [y E]; now destruct r|intros ->; apply pre_refl]. }
    destruct t as [|d n z o]; cbn [sem].
    + split.
      * intros ->. right. split; auto. intros r _. unfold nt. now rewrite sub_nil.
      * intros [(r & x & _ & E & _)|[_ ->]]; auto. unfold nt in E. now rewrite sub_nil in E.
    + split.
      * destruct n as [x|]; cbn [at_opt]; intros E.
        -- left. exists [], x. rewrite P. injection E as E. split; [auto|]. split; [reflexivity|]. split; [auto|].
           intros r' ->%P H. cbn in H. lia.
        -- right. split; auto. intros r ->%P. reflexivity.
      * intros [(r & x & ->%P & E & <- & _)|[H ->]].
        -- cbn in E. subst n. reflexivity.
        -- specialize (H [] (pre_refl _)). cbn in H. subst n. reflexivity.
  - destruct t as [|d n z o]; cbn [sem].
    + split.
      * intros ->. right. split; auto. intros r _. unfold nt. now rewrite sub_nil.
      * intros [(r & x & _ & E & _)|[_ ->]]; auto. unfold nt in E. now rewrite sub_nil in E.
    + rewrite IH. clear IH. split.
      * intros [(r & x & Pr & E & A & U)|[U E]].
        -- left. exists (b :: r), x. split; [destruct Pr as [y ->]; now exists y|]. split; [now rewrite nt_cons|].
           split; auto. intros r' P' L. apply pre_cons_inv in P' as [->|(r2 & -> & P2)]; [cbn in L; lia|].
           rewrite nt_cons. apply U; auto. cbn in L. lia.
        -- destruct n as [x|]; cbn [at_opt] in E.
           ++ left. exists [], x. injection E as E. split; [now exists (b :: bits)|]. split; [reflexivity|].
              split; auto. intros r' P' L. apply pre_cons_inv in P' as [->|(r2 & -> & P2)]; [cbn in L; lia|].
              rewrite nt_cons. now apply U.
           ++ right. split; auto. intros r' P'. apply pre_cons_inv in P' as [->|(r2 & -> & P2)]; [reflexivity|].
              rewrite nt_cons. now apply U.
      * intros [(r & x & Pr & E & A & U)|[U E]].
        -- apply pre_cons_inv in Pr as [->|(r2 & -> & P2)].
           ++ right. cbn in E. subst n. cbn [at_opt]. split; [|now rewrite A].
              intros r P. rewrite <- (nt_cons d (Some x) z o b r). apply U; [destruct P as [y ->]; now exists y|].
              cbn. lia.
           ++ left. exists r2, x. split; auto. split; [now rewrite <- (nt_cons d n z o b r2)|]. split; auto.
              intros r' P' L. rewrite <- (nt_cons d n z o b r'). apply U; [destruct P' as [y ->]; now exists y|].
              cbn. lia.
        -- right. split.
           ++ intros r P. rewrite <- (nt_cons d n z o b r). apply U. destruct P as [y ->]. now exists y.
           ++ specialize (U [] ltac:(now exists (b :: bits))). cbn in U. now subst n.
Qed.
