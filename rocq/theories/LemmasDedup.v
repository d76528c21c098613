(** Deduplication of the network tree. *)
From Coq Require Import NArith ZArith List Bool Arith Lia ZifyBool ZifyNat ZifyN Sorting.Sorted.
From Verif Require Import Base LemmasBase ModelAddress LemmasAddress ModelCountryCode ModelNetwork
  LemmasNetwork ModelNetworkList LemmasNetworkList ModelTree LemmasPath LemmasTree.
Import ListNotations.
Open Scope N_scope.

(** closest network on the way to [p] *)
Fixpoint near (t : tree) (p : list bool) (c : option network) {struct p} : option network :=
  match p with
  | [] => c
  | b :: p' =>
      match t with
      | Nil => c
      | Node _ n z o => near (if b then o else z) p' (match n with Some x => Some x | None => c end)
      end
  end.

Lemma near_snoc p : forall t b c, near t (p ++ [b]) c = match nt t p with Some x => Some x | None => near t p c end.
Proof.
  induction p as [|a p IH]; intros t b c; cbn [near app].
  - destruct t; reflexivity.
  - destruct t as [|d n z o]; [unfold nt; now rewrite sub_nil|]. rewrite IH, nt_cons. reflexivity.
Qed.

Lemma near_repl p : forall t s c, near (repl t p s) p c = near t p c.
Proof.
  induction p as [|b p IH]; intros t s c; cbn [near repl]; auto.
  destruct t as [|d n z o]; auto. destruct b; apply IH.
Qed.

Lemma near_spec t p : match near t p None with
  | Some y => exists r, pre r p /\ r <> p /\ nt t r = Some y /\
      (forall r', pre r' p -> r' <> p -> (length r < length r')%nat -> nt t r' = None)
  | None => forall r, pre r p -> r <> p -> nt t r = None
  end.
Proof.
  induction p as [|b p IH] using rev_ind.
  - cbn. intros r [y E] D. destruct r; [congruence|discriminate].
  - rewrite near_snoc.
    assert (Q : forall r, pre r (p ++ [b]) -> r <> p ++ [b] -> pre r p).
    { intros r P D. apply pre_snoc in P as [P|P]; auto. congruence. }
    assert (NE : p <> p ++ [b]).
    { intros E. apply (f_equal (@length bool)) in E. rewrite app_length in E. cbn [length] in E. lia. }
    destruct (nt t p) as [x|] eqn:E.
    + exists p. split; [apply pre_app|]. split; [exact NE|]. split; auto.
      intros r' P D L. apply Q in P; auto. apply pre_length in P. lia.
    + destruct (near t p None) as [y|].
      * destruct IH as (r & P & D & N & U). exists r. split; [now apply pre_trans with p; [|apply pre_app]|].
        split. { intros ->. apply pre_length in P. rewrite app_length in P. cbn [length] in P. lia. }
        split; auto. intros r' P' D' L. apply Q in P'; auto.
        destruct (list_eq_dec Bool.bool_dec r' p) as [->|D2]; auto.
      * intros r P D. apply Q in P; auto.
        destruct (list_eq_dec Bool.bool_dec r p) as [->|D2]; auto.
Qed.

Definition same (c : option network) (x : network) : bool :=
  match c with Some n => (properties_cmp n x =? 0)%Z | None => false end.

Definition leaf (z o : tree) : bool := match z, o with Nil, Nil => true | _, _ => false end.

(** what a deduplication pass leaves below a node whose closest network is c *)
Fixpoint dd (F : family) (c : option network) (t : tree) : tree :=
  match t with
  | Node false (Some x) z o =>
      if family_eqb F (n_family x) then t
      else if same c x then Node (leaf z o) None (dd F c z) (dd F c o)
      else Node false (Some x) (dd F (Some x) z) (dd F (Some x) o)
  | Node false None z o => Node false None (dd F c z) (dd F c o)
  | t => t
  end.

Lemma drop_net_leaf n z o : drop_net (Node false n z o) = Node (leaf z o) None z o.
Proof. destruct z, o; reflexivity. Qed.

Lemma sorted_snoc_del l n : sorted (l ++ [n]) -> del n (l ++ [n]) = l.
Proof.
  intros H. unfold del. rewrite filter_app. cbn [filter]. rewrite N.eqb_refl. cbn [negb]. rewrite app_nil_r.
  apply sorted_app in H as (_ & _ & H).
  assert (E : forall y, In y l -> negb (K y =? K n) = true).
  { intros y I. specialize (H y n I (or_introl eq_refl)). lia. }
  clear H. induction l as [|a l IH]; cbn [filter]; auto.
  rewrite (E a (or_introl eq_refl)). f_equal. apply IH. intros y I. apply E. now right.
Qed.

Lemma dedup_pop x t : net_wf x -> forall l2 l1 L, repr L (l1 ++ l2) -> sorted (l1 ++ l2) ->
  (forall y, In y l2 -> is_subnet y x = false) ->
  exists L1, repr L1 l1 /\ dedup_loop x t L (length (l1 ++ l2)) = dedup_loop x t L1 (length l1).
Proof.
  intros W. induction l2 as [|n l2 IH] using rev_ind; intros l1 L R So H.
  - rewrite app_nil_r in *. exists L. auto.
  - rewrite app_assoc in R, So |- *. rewrite app_length. cbn [length].
    replace (length (l1 ++ l2) + 1)%nat with (S (length (l1 ++ l2))) by lia. cbn [dedup_loop].
    rewrite (list_get_spec L _ _ R). rewrite nth_error_app2 by lia. rewrite Nat.sub_diag. cbn [nth_error bind].
    rewrite H by (apply in_or_app; right; now left).
    assert (Wn : net_wf n) by (apply (sorted_wf _ _ So), in_or_app; right; now left).
    destruct (list_remove_spec L _ n R So Wn) as (L' & E & R'). rewrite E. cbn [bind].
    rewrite (sorted_snoc_del _ _ So) in R'. apply sorted_app in So as (So & _).
    apply IH; auto. intros y I. apply H, in_or_app. now left.
Qed.

Lemma last_such {A} (f : A -> bool) l :
  (forall y, In y l -> f y = false) \/
  (exists l1 n l2, l = l1 ++ n :: l2 /\ f n = true /\ forall y, In y l2 -> f y = false).
Proof.
  induction l as [|a l [IH|(l1 & n & l2 & -> & H1 & H2)]].
  - left. now intros y [].
  - destruct (f a) eqn:E.
    + right. exists [], a, l. auto.
    + left. intros y [<-|I]; auto.
  - right. exists (a :: l1), n, l2. auto.
Qed.

Record stack_ok (t : tree) (p : list bool) (L : nlist) (l : list network) : Prop := {
  k_repr : repr L l;
  k_sorted : sorted l;
  k_in : forall y, In y l -> nt t (path y) = Some y;
  k_anc : forall r y, pre r p -> r <> p -> nt t r = Some y -> In y l;
  k_out : forall y, In y l -> ~ pre p (path y)
}.

(** processing the network at p *)
Lemma dedup_step_spec t p x L l : wf_at [] t -> nt t p = Some x -> stack_ok t p L l ->
  exists L' l', repr L' l' /\ sorted l' /\
    dedup_step x t L = Ok (if same (near t p None) x then tree_delete t x else t, L') /\
    (forall y, In y l' -> In y l \/ (y = x /\ same (near t p None) x = false)) /\
    (forall y, In y l -> pre (path y) p -> In y l') /\
    (same (near t p None) x = false -> In x l').
Proof.
  intros W N [R So Hin Hanc Hout].
  destruct (wf_nt [] t p x W N) as [Wx Px]. cbn [app] in Px.
  assert (SubP : forall y, In y l -> is_subnet y x = true <-> pre (path y) p).
  { intros y I. rewrite <- Px. apply subnet_path; auto. now apply (sorted_wf l). }
  assert (Mx : forall l', (forall y, In y l' -> In y l) -> mem x l' = false).
  { intros l' Hl. apply mem_false_iff. intros y I E. apply Hl in I.
    apply path_eq in E; auto; [|now apply (sorted_wf l)].
    apply (Hout y I). rewrite E, Px. apply pre_refl. }
  pose proof (near_spec t p) as NS.
  unfold dedup_step. destruct (last_such (fun y => is_subnet y x) l) as [A|(l1 & n & l2 & -> & A & B)].
  - (* nothing on the stack contains x *)
    assert (Nn : near t p None = None).
    { destruct (near t p None) as [y|]; auto. destruct NS as (r & P & D & E & _).
      pose proof (Hanc r y P D E) as I. specialize (A y I). cbn in A.
      destruct (wf_nt [] t r y W E) as [_ Py]. cbn [app] in Py.
      rewrite <- Py in P. apply SubP in P; auto. congruence. }
    rewrite Nn. cbn [same].
    destruct (dedup_pop x t Wx l [] L R So A) as (L1 & R1 & E1).
    replace (nsize L) with (length l) by (symmetry; apply R).
    cbn [app length] in E1. rewrite E1. cbn [dedup_loop bind].
    destruct (list_push_spec L1 [] x R1 sorted_nil Wx) as (L2 & E2 & R2). rewrite E2. cbn [bind].
    exists L2, (ins x []). split; auto. split; [now apply sorted_ins; [|apply sorted_nil]|].
    split; [reflexivity|]. cbn [ins]. split; [intros y [<-|[]]; right; auto|].
    split; [|intros _; now left].
    intros y I P. apply SubP in P; auto. specialize (A y I). cbn in A. congruence.
  - assert (In_n : In n (l1 ++ n :: l2)) by (apply in_or_app; right; now left).
    assert (Pn : pre (path n) p) by now apply SubP.
    assert (Dn : path n <> p). { intros E. apply (Hout n In_n). rewrite E. apply pre_refl. }
    assert (Nn : near t p None = Some n).
    { pose proof (Hin n In_n) as En. destruct (near t p None) as [y|].
      - destruct NS as (r & P & D & E & U).
        destruct (wf_nt [] t r y W E) as [Wy Py]. cbn [app] in Py.
        destruct (Nat.lt_trichotomy (length r) (length (path n))) as [G|[G|G]].
        + rewrite (U (path n) Pn Dn G) in En. discriminate.
        + assert (r = path n) as ->.
          { apply pre_antisym; [|lia]. apply pre_comparable with p; auto. lia. }
          congruence.
        + (* y is above n in the order and contains x: impossible *)
          exfalso. pose proof (Hanc r y P D E) as I.
          assert (Wn : net_wf n) by now apply (sorted_wf _ _ So).
          assert (K n < K y) as KK.
          { apply pre_K; auto; rewrite Py; [apply pre_comparable with p; auto; lia|].
            intros X. rewrite X in G. lia. }
          apply in_app_or in I as [I|[I|I]].
          * apply sorted_app in So as (_ & _ & S3). specialize (S3 y n I (or_introl eq_refl)). lia.
          * subst y. lia.
          * specialize (B y I). cbn in B. rewrite <- Py in P. apply SubP in P; [congruence|].
            apply in_or_app. right. now right.
      - rewrite (NS (path n) Pn Dn) in En. discriminate. }
    rewrite Nn. cbn [same].
    destruct (dedup_pop x t Wx l2 (l1 ++ [n]) L) as (L1 & R1 & E1).
    { now rewrite <- app_assoc. } { now rewrite <- app_assoc. } { exact B. }
    rewrite <- app_assoc in E1. cbn [app] in E1.
    replace (nsize L) with (length (l1 ++ n :: l2)) by (symmetry; apply R). rewrite E1.
    rewrite app_length. cbn [length]. replace (length l1 + 1)%nat with (S (length l1)) by lia. cbn [dedup_loop].
    rewrite (list_get_spec L1 _ _ R1). rewrite nth_error_app2, Nat.sub_diag by lia. cbn [nth_error bind].
    rewrite A.
    assert (So1 : sorted (l1 ++ [n])).
    { clear -So. replace (l1 ++ n :: l2) with ((l1 ++ [n]) ++ l2) in So by now rewrite <- app_assoc.
      now apply sorted_app in So as (? & _). }
    assert (Keep : forall y, In y (l1 ++ n :: l2) -> pre (path y) p -> In y (l1 ++ [n])).
    { intros y I P. apply in_app_or in I as [I|[I|I]]; apply in_or_app; auto; [right; now left|].
      specialize (B y I). cbn in B. apply SubP in P; [congruence|]. apply in_or_app. right. now right. }
    assert (Sub : forall y, In y (l1 ++ [n]) -> In y (l1 ++ n :: l2)).
    { intros y I. apply in_app_or in I as [I|[I|[]]]; apply in_or_app; auto. right. now left. }
    destruct (properties_cmp n x =? 0)%Z eqn:Q; cbn [bind].
    + exists L1, (l1 ++ [n]). split; auto. split; auto. split; auto. split; auto. split; auto. discriminate.
    + destruct (list_push_spec L1 _ x R1 So1 Wx) as (L2 & E2 & R2). rewrite E2. cbn [bind].
      exists L2, (ins x (l1 ++ [n])). split; auto. split; [now apply sorted_ins|]. split; auto.
      split. { intros y I. apply ins_in in I as [->|I]; auto. }
      split. { intros y I P. apply ins_in_old. auto. }
      intros _. apply ins_new. now apply Mx.
Qed.

Lemma family_eqb_eq F G : family_eqb F G = true <-> F = G.
Proof. destruct F, G; cbn; split; congruence. Qed.

Lemma dd_nil F c : dd F c Nil = Nil.
Proof. reflexivity. Qed.
Lemma dd_not_nil F c t : t <> Nil -> dd F c t <> Nil.
Proof.
  destruct t as [|[] [x|] z o]; cbn [dd]; auto; try congruence.
  destruct (family_eqb F (n_family x)); [congruence|]. destruct (same c x); congruence.
Qed.

Lemma wf_dd F t : forall q c, wf_at q t -> wf_at q (dd F c t).
Proof.
  induction t as [|d n z IHz o IHo]; intros q c H; auto.
  destruct d; [exact H|]. destruct H as (H1 & H2 & H3 & H4 & H5). cbn [dd]. destruct n as [x|].
  - destruct (family_eqb F (n_family x)); [cbn [wf_at]; auto|].
    destruct (same c x); cbn [wf_at]; (split; [auto|]).
    + split; [|split; [discriminate|auto]]. intros L. split; auto.
      destruct z, o; try discriminate. auto.
    + split; [discriminate|auto].
  - cbn [wf_at]. split; auto. split; [discriminate|auto].
Qed.

(** the walk below p *)
Section DedupWalk.
Variable F : family.
Let flt := fun x => family_eqb F (n_family x).

Lemma dedup_walk fuel : forall p t L l,
  (129 <= fuel + length p)%nat -> wf_at [] t -> sub t p <> Nil -> stack_ok t p L l ->
  exists L' l', walk flt dedup_step p t L fuel = Ok (repl t p (dd F (near t p None) (sub t p)), L') /\
    repr L' l' /\ sorted l' /\
    (forall y, In y l' -> nt (repl t p (dd F (near t p None) (sub t p))) (path y) = Some y) /\
    (forall y, In y l -> pre (path y) p -> In y l') /\
    (forall y, In y l' -> In y l \/ pre p (path y)).
Proof.
  induction fuel as [|fuel IH]; intros p t L l Hf W E SO.
  { exfalso. pose proof (wf_len [] t p W E) as H. cbn [app] in H. lia. }
  (* one child *)
  assert (Child : forall b t L l,
    wf_at [] t -> sub t (p ++ [b]) <> Nil -> stack_ok t (p ++ [b]) L l ->
    exists L' l', walk flt dedup_step (p ++ [b]) t L fuel =
       Ok (repl t (p ++ [b]) (dd F (near t (p ++ [b]) None) (sub t (p ++ [b]))), L') /\
    repr L' l' /\ sorted l' /\
    (forall y, In y l' -> nt (repl t (p ++ [b]) (dd F (near t (p ++ [b]) None) (sub t (p ++ [b])))) (path y) = Some y) /\
    (forall y, In y l -> pre (path y) (p ++ [b]) -> In y l') /\
    (forall y, In y l' -> In y l \/ pre (p ++ [b]) (path y))).
  { intros b t' L' l' W' E' SO'. apply IH; auto. rewrite app_length. cbn [length]. lia. }
  cbn [walk].
  assert (Descend : forall t1 L1 l1 d n z o,
    wf_at [] t1 -> sub t1 p = Node d n z o ->
    repr L1 l1 -> sorted l1 ->
    (forall y, In y l1 -> nt t1 (path y) = Some y) ->
    (forall r y, pre r p -> nt t1 r = Some y -> In y l1) ->
    (forall y, In y l1 -> pre p (path y) -> path y = p) ->
    let c := near t1 (p ++ [false]) None in
    exists L' l',
      (do (t, s) <- match sub t1 (p ++ [false]) with
                    | Nil => Ok (t1, L1)
                    | Node _ _ _ _ => walk flt dedup_step (p ++ [false]) t1 L1 fuel
                    end;
       match sub t (p ++ [true]) with
       | Nil => Ok (t, s)
       | Node _ _ _ _ => walk flt dedup_step (p ++ [true]) t s fuel
       end) = Ok (repl t1 p (Node d n (dd F c z) (dd F c o)), L') /\
      repr L' l' /\ sorted l' /\
      (forall y, In y l' -> nt (repl t1 p (Node d n (dd F c z) (dd F c o))) (path y) = Some y) /\
      (forall y, In y l1 -> pre (path y) p -> In y l') /\
      (forall y, In y l' -> In y l1 \/ pre p (path y))).
  { intros t1 L1 l1 d n z o W1 E1 R1 S1 I1 A1 O1 c.
    assert (Ep : sub t1 p <> Nil) by (rewrite E1; discriminate).
    assert (Ez : sub t1 (p ++ [false]) = z) by (now rewrite sub_app, E1).
    assert (Eo : sub t1 (p ++ [true]) = o) by (now rewrite sub_app, E1).
    assert (NB : forall b y, pre (p ++ [b]) (path y) -> path y <> p).
    { intros b y P X. apply pre_length in P. rewrite X, app_length in P. cbn [length] in P. lia. }
    (* zero *)
    assert (Z : exists L2 l2,
      match sub t1 (p ++ [false]) with
      | Nil => Ok (t1, L1)
      | Node _ _ _ _ => walk flt dedup_step (p ++ [false]) t1 L1 fuel
      end = Ok (repl t1 p (Node d n (dd F c z) o), L2) /\
      repr L2 l2 /\ sorted l2 /\
      (forall y, In y l2 -> nt (repl t1 p (Node d n (dd F c z) o)) (path y) = Some y) /\
      (forall y, In y l1 -> pre (path y) p -> In y l2) /\
      (forall y, In y l2 -> In y l1 \/ pre (p ++ [false]) (path y))).
    { destruct (sub t1 (p ++ [false])) eqn:Q.
      - subst z. rewrite dd_nil. rewrite <- E1, repl_same. exists L1, l1. auto 12.
      - assert (Q' : sub t1 (p ++ [false]) <> Nil) by (rewrite Q; discriminate).
        destruct (Child false t1 L1 l1 W1 Q') as (L2 & l2 & C1 & C2 & C3 & C4 & C5 & C6).
        { constructor; auto.
          - intros r y P D N. apply A1 with r; auto. apply pre_snoc in P as [P|P]; auto. congruence.
          - intros y I P. apply (NB false y P). apply O1; auto.
            apply pre_trans with (p ++ [false]); auto. apply pre_app. }
        rewrite Q, Ez in C1, C4. fold c in C1, C4.
        assert (RR : repl t1 (p ++ [false]) (dd F c z) = repl t1 p (Node d n (dd F c z) o)).
        { rewrite <- (repl_same t1 p) at 1. rewrite repl_repl by auto. rewrite E1. reflexivity. }
        rewrite RR in C1, C4. exists L2, l2. split; [exact C1|]. split; auto. split; auto. split; auto. split; auto.
        intros y I P. apply C5; auto. apply pre_trans with p; auto. apply pre_app. }
    destruct Z as (L2 & l2 & Z1 & Z2 & Z3 & Z4 & Z5 & Z6). rewrite Z1. cbn [bind].
    set (t2 := repl t1 p (Node d n (dd F c z) o)) in *.
    assert (Et2 : sub t2 p = Node d n (dd F c z) o) by (unfold t2; now rewrite sub_repl).
    assert (Eo2 : sub t2 (p ++ [true]) = o) by (now rewrite sub_app, Et2).
    assert (W2 : wf_at [] t2).
    { unfold t2. apply wf_repl; auto. cbn [app]. pose proof (wf_sub p [] t1 W1) as X. cbn [app] in X. rewrite E1 in X.
      destruct X as (X1 & X2 & X3 & X4 & X5). cbn [wf_at]. split; auto. split; [|split; auto; split; auto; now apply wf_dd].
      intros Hd. destruct (X2 Hd) as (-> & -> & ->). auto. }
    assert (N2 : forall r, pre r p -> nt t2 r = nt t1 r).
    { intros r P. destruct (list_eq_dec Bool.bool_dec r p) as [->|D].
      - unfold nt. now rewrite Et2, E1.
      - unfold t2. apply nt_repl_out. intros P2. apply D, pre_antisym; auto. now apply pre_length. }
    assert (C2 : near t2 (p ++ [true]) None = c).
    { unfold c. rewrite !near_snoc. rewrite N2 by apply pre_refl.
      destruct (nt t1 p); auto. unfold t2. apply near_repl. }
    rewrite Eo2.
    assert (FT : forall y, pre (p ++ [false]) (path y) -> ~ pre (p ++ [true]) (path y)).
    { intros y P Q. assert (X : p ++ [false] = p ++ [true]).
      { apply pre_antisym; [|rewrite !app_length; cbn; lia].
        apply pre_comparable with (path y); auto. rewrite !app_length. cbn. lia. }
      apply app_inj_tail in X as [_ X]. discriminate. }
    destruct o as [|d2 n2 z2 o2].
    - rewrite dd_nil. exists L2, l2. split; auto. split; auto. split; auto. split; auto. split; auto.
      intros y I. apply Z6 in I as [I|I]; auto. right. apply pre_trans with (p ++ [false]); auto. apply pre_app.
    - set (o := Node d2 n2 z2 o2) in *.
      destruct (Child true t2 L2 l2 W2) as (L3 & l3 & D1 & D2 & D3 & D4 & D5 & D6).
      { rewrite Eo2. discriminate. }
      { constructor; auto.
        - intros r y P D N. apply pre_snoc in P as [P|P]; [|congruence].
          rewrite N2 in N by auto.
          destruct (wf_nt [] t1 r y W1 N) as [_ Py]. cbn [app] in Py.
          apply Z5; [now apply A1 with r|now rewrite Py].
        - intros y I P. apply Z6 in I as [I|I]; [|now apply (FT y I)].
          apply (NB true y P). apply O1; auto. apply pre_trans with (p ++ [true]); auto. apply pre_app. }
      rewrite C2, Eo2 in D1, D4.
      assert (RR : repl t2 (p ++ [true]) (dd F c o) = repl t1 p (Node d n (dd F c z) (dd F c o))).
      { unfold t2. rewrite repl_repl by auto. reflexivity. }
      rewrite RR in D1, D4. exists L3, l3. split; [exact D1|]. split; auto. split; auto. split; auto. split.
      + intros y I P. apply D5; [now apply Z5|]. apply pre_trans with p; auto. apply pre_app.
      + intros y I. apply D6 in I as [I|I].
        * apply Z6 in I as [I|I]; auto. right. apply pre_trans with (p ++ [false]); auto. apply pre_app.
        * right. apply pre_trans with (p ++ [true]); auto. apply pre_app. }
  pose proof SO as [R So Hin Hanc Hout].
  destruct (sub t p) as [|d n z o] eqn:Es; [congruence|].
  assert (Nt : nt t p = n) by (unfold nt; now rewrite Es).
  assert (Skip : exists L' l', Ok (t, L) = Ok (repl t p (Node d n z o), L') /\
    repr L' l' /\ sorted l' /\
    (forall y, In y l' -> nt (repl t p (Node d n z o)) (path y) = Some y) /\
    (forall y, In y l -> pre (path y) p -> In y l') /\
    (forall y, In y l' -> In y l \/ pre p (path y))).
  { exists L, l. rewrite <- Es, repl_same. auto 12. }
  destruct d; [exact Skip|]. destruct n as [x|]; cbn [dd].
  - (* a network here *)
    fold (flt x). destruct (flt x) eqn:Fx; [exact Skip|]. clear Skip.
    destruct (dedup_step_spec t p x L l W Nt SO) as (L1 & l1 & R1 & S1 & E1 & I1 & K1 & X1).
    destruct (wf_nt [] t p x W Nt) as [Wx Px]. cbn [app] in Px.
    rewrite E1. cbn [bind]. destruct (same (near t p None) x) eqn:Sa.
    + (* removed *)
      assert (Ed : tree_delete t x = repl t p (Node (leaf z o) None z o)).
      { unfold tree_delete. rewrite Px. rewrite at_path_repl with (q := []); auto.
        - rewrite Es. now rewrite drop_net_leaf.
        - now apply (wf_live [] t p x). }
      rewrite Ed. set (t1 := repl t p (Node (leaf z o) None z o)).
      assert (Ep : sub t p <> Nil) by (rewrite Es; discriminate).
      assert (E1' : sub t1 p = Node (leaf z o) None z o) by (unfold t1; now rewrite sub_repl).
      assert (W1 : wf_at [] t1).
      { unfold t1. apply wf_repl; auto. cbn [app]. pose proof (wf_sub p [] t W) as Q. cbn [app] in Q. rewrite Es in Q.
        destruct Q as (Q1 & Q2 & Q3 & Q4 & Q5). cbn [wf_at]. split; auto. split; [|split; [discriminate|auto]].
        intros Hl. destruct z, o; try discriminate. auto. }
      assert (Np : nt t1 p = None) by (unfold nt; now rewrite E1').
      assert (N1 : forall r, r <> p -> ~ pre p r -> nt t1 r = nt t r).
      { intros r D P. unfold t1. now apply nt_repl_out. }
      assert (L1in : forall y, In y l1 -> In y l).
      { intros y I. apply I1 in I as [I|[_ I]]; [auto|discriminate]. }
      destruct (Descend t1 L1 l1 (leaf z o) None z o) as (L' & l' & D1 & D2 & D3 & D4 & D5 & D6); auto.
      { intros y I. apply L1in in I. rewrite N1; auto.
        intros Q. apply (Hout y I). rewrite Q. apply pre_refl. }
      { intros r y P N. destruct (list_eq_dec Bool.bool_dec r p) as [->|D]; [congruence|].
        assert (~ pre p r) as NP. { intros Q. apply D, pre_antisym; auto. now apply pre_length. }
        rewrite N1 in N by auto. destruct (wf_nt [] t r y W N) as [_ Py]. cbn [app] in Py.
        apply K1; [now apply Hanc with r|now rewrite Py]. }
      { intros y I P. exfalso. exact (Hout y (L1in y I) P). }
      rewrite near_snoc, Np in D1, D4. unfold t1 in D1, D4. rewrite near_repl in D1, D4.
      assert (RR : forall s s', repl (repl t p s) p s' = repl t p s').
      { intros s s'. pose proof (repl_repl t p s [] s' Ep) as Q. now rewrite app_nil_r in Q. }
      rewrite RR in D1, D4. fold t1 in D1.
      exists L', l'. split; [exact D1|]. split; auto. split; auto. split; auto. split; auto.
      intros y I. apply D6 in I as [I|I]; auto.
    + (* kept *)
      destruct (Descend t L1 l1 false (Some x) z o) as (L' & l' & D1 & D2 & D3 & D4 & D5 & D6); auto.
      { intros y I. apply I1 in I as [I|[-> _]]; auto. now rewrite Px. }
      { intros r y P N. destruct (list_eq_dec Bool.bool_dec r p) as [->|D].
        - rewrite Nt in N. injection N as <-. now apply X1.
        - destruct (wf_nt [] t r y W N) as [_ Py]. cbn [app] in Py.
          apply K1; [now apply Hanc with r|now rewrite Py]. }
      { intros y I P. apply I1 in I as [I|[-> _]]; auto. exfalso. exact (Hout y I P). }
      rewrite near_snoc, Nt in D1, D4. exists L', l'. split; [exact D1|]. split; auto. split; auto. split; auto. split; auto.
      intros y I. apply D6 in I as [I|I]; auto. apply I1 in I as [I|[-> _]]; auto. right. rewrite Px. apply pre_refl.
  - (* no network here *)
    destruct (Descend t L l false None z o) as (L' & l' & D1 & D2 & D3 & D4 & D5 & D6); auto.
    { intros r y P N. apply Hanc with r; auto. intros ->. congruence. }
    { intros y I P. exfalso. exact (Hout y I P). }
    rewrite near_snoc, Nt in D1, D4. exists L', l'. auto 12.
Qed.

Lemma dedup_one_spec t : tree_ok t -> dedup_one F t = Ok (dd F None t).
Proof.
  intros [W Lv]. unfold dedup_one, tree_walk.
  destruct (dedup_walk 129 [] t list_new []) as (L' & l' & E & _); auto.
  - destruct t; [destruct Lv|discriminate].
  - constructor.
    + apply list_new_repr.
    + apply sorted_nil.
    + intros y [].
    + intros r y [s Q] D. destruct r; [congruence|discriminate].
    + intros y [].
  - fold flt. rewrite E. reflexivity.
Qed.
End DedupWalk.

(** the deduplicated tree gives every address the same attributes *)
Lemma sem_dd F t : forall c bits q, wf_at q t ->
  sem (dd F c t) bits (option_map at3 c) = sem t bits (option_map at3 c).
Proof.
  induction t as [|d n z IHz o IHo]; intros c bits q W; auto.
  destruct d; [reflexivity|]. destruct W as (_ & _ & _ & W4 & W5).
  assert (Rec : forall c (b : bool) bits, sem (if b then dd F c o else dd F c z) bits (option_map at3 c) =
                              sem (if b then o else z) bits (option_map at3 c)).
  { intros c' [|] bits'; eauto. }
  cbn [dd]. destruct n as [x|].
  - destruct (family_eqb F (n_family x)); auto.
    destruct (same c x) eqn:Sa.
    + destruct c as [y|]; [|discriminate]. cbn [same] in Sa. apply properties_cmp_0, at3_iff in Sa.
      destruct bits as [|b bits]; cbn [sem at_opt option_map]; [now rewrite Sa|].
      specialize (Rec (Some y) b bits). cbn [option_map] in Rec. rewrite Rec. now rewrite Sa.
    + destruct bits as [|b bits]; cbn [sem at_opt]; auto. apply (Rec (Some x) b bits).
  - destruct bits as [|b bits]; cbn [sem at_opt]; auto.
Qed.

(** no network has the attributes of the closest one above it; the walk stops at
    networks of family F *)
Fixpoint complete (F : family) (c : option network) (t : tree) : Prop :=
  match t with
  | Nil => True
  | Node _ None z o => complete F c z /\ complete F c o
  | Node _ (Some x) z o =>
      if family_eqb F (n_family x) then True
      else same c x = false /\ complete F (Some x) z /\ complete F (Some x) o
  end.

Lemma complete_dd F t : forall q c, wf_at q t -> complete F c (dd F c t).
Proof.
  induction t as [|d n z IHz o IHo]; intros q c W; cbn [dd complete]; auto.
  destruct W as (_ & W2 & _ & W4 & W5). destruct d.
  - destruct (W2 eq_refl) as (-> & -> & ->). cbn. auto.
  - destruct n as [x|]; [|cbn [complete]; eauto].
    destruct (family_eqb F (n_family x)) eqn:Fx; [cbn [complete]; now rewrite Fx|].
    destruct (same c x) eqn:Sa; cbn [complete]; eauto. rewrite Fx, Sa. eauto.
Qed.

Lemma complete_other t : complete AF_INET6 None t -> complete AF_INET6 None (dd AF_INET None t).
Proof.
  induction t as [|d n z IHz o IHo]; intros H; auto. destruct d; [exact H|]. destruct n as [x|].
  - cbn [dd]. destruct (family_eqb AF_INET (n_family x)) eqn:Fx; [exact H|]. cbn [same complete].
    destruct (n_family x); [discriminate|]. exact I.
  - cbn [dd complete] in *. destruct H. auto.
Qed.

Lemma nt_dd F t : forall c r x, nt (dd F c t) r = Some x -> nt t r = Some x.
Proof.
  induction t as [|d n z IHz o IHo]; intros c r x H; auto. destruct d; [exact H|].
  destruct n as [y|]; cbn [dd] in H.
  - destruct (family_eqb F (n_family y)); auto.
    destruct (same c y), r as [|b r]; try discriminate; auto; rewrite nt_cons in H |- *; destruct b; eauto.
  - destruct r as [|b r]; auto. rewrite nt_cons in H |- *. destruct b; eauto.
Qed.

Lemma dedup_spec t : tree_ok t -> exists t', dedup t = Ok t' /\ tree_ok t' /\
  (forall bits, sem t' bits None = sem t bits None) /\
  complete AF_INET6 None t' /\ complete AF_INET None t' /\
  (forall r x, nt t' r = Some x -> nt t r = Some x).
Proof.
  intros [W Lv]. unfold dedup. rewrite dedup_one_spec by (split; auto). cbn [bind].
  set (t1 := dd AF_INET6 None t).
  assert (Live : forall F t, live t -> live (dd F None t)).
  { intros F [|[] [y|] z o]; cbn; auto. intros _. destruct (family_eqb F (n_family y)); cbn; auto. }
  assert (W1 : wf_at [] t1) by now apply wf_dd.
  assert (T1 : tree_ok t1) by (split; auto; now apply Live).
  rewrite dedup_one_spec by auto. exists (dd AF_INET None t1). split; auto.
  split; [split; [now apply wf_dd|apply Live, T1]|].
  split. { intros bits. transitivity (sem t1 bits None).
    - apply (sem_dd AF_INET t1 None bits [] W1).
    - apply (sem_dd AF_INET6 t None bits [] W). }
  split; [apply complete_other; now apply (complete_dd AF_INET6 t [])|].
  split; [now apply (complete_dd AF_INET t1 [])|].
  intros r x H. now apply nt_dd, nt_dd in H.
Qed.

(** every network is inside one with its attributes *)
Lemma dd_in F t : forall c r y, nt t r = Some y ->
  option_map at3 c = Some (at3 y) \/ exists r' y', pre r' r /\ nt (dd F c t) r' = Some y' /\ at3 y' = at3 y.
Proof.
  induction t as [|d n z IHz o IHo]; intros c r y H; [now destruct r|].
  destruct d. { right. exists r, y. split; [exists []; now rewrite app_nil_r|auto]. }
  assert (Rec : forall c (b : bool) r, nt (if b then o else z) r = Some y ->
    option_map at3 c = Some (at3 y) \/ exists r' y', pre r' r /\ nt (if b then dd F c o else dd F c z) r' = Some y' /\ at3 y' = at3 y).
  { intros c' [|] r' N; auto. }
  destruct n as [x|]; cbn [dd].
  - destruct (family_eqb F (n_family x)). { right. exists r, y. split; [exists []; now rewrite app_nil_r|auto]. }
    destruct (same c x) eqn:Sa.
    + destruct r as [|b r].
      * left. injection H as ->. destruct c as [p|]; [|discriminate]. cbn [same] in Sa. apply properties_cmp_0, at3_iff in Sa. cbn. now rewrite Sa.
      * rewrite nt_cons in H. destruct (Rec c b r) as [L|(r' & y' & [s ->] & N & A)]; [now destruct b|auto|].
        right. exists (b :: r'), y'. split; [now exists s|]. split; [rewrite nt_cons; now destruct b|exact A].
    + destruct r as [|b r]; right.
      * exists [], y. split; [now exists []|auto].
      * rewrite nt_cons in H. destruct (Rec (Some x) b r) as [L|(r' & y' & [s ->] & N & A)]; [now destruct b| |].
        -- exists [], x. split; [now exists (b :: r)|]. split; auto. cbn in L. congruence.
        -- exists (b :: r'), y'. split; [now exists s|]. split; [rewrite nt_cons; now destruct b|exact A].
  - destruct r as [|b r]; [discriminate|]. rewrite nt_cons in H. destruct (Rec c b r) as [L|(r' & y' & [s ->] & N & A)]; [now destruct b|auto|].
    right. exists (b :: r'), y'. split; [now exists s|]. split; [rewrite nt_cons; now destruct b|exact A].
Qed.

Lemma dedup_in t t' : tree_ok t -> dedup t = Ok t' -> forall r y, nt t r = Some y ->
  exists r' y', pre r' r /\ nt t' r' = Some y' /\ at3 y' = at3 y.
Proof.
  intros [W Lv]. unfold dedup. rewrite dedup_one_spec by (split; auto). cbn [bind].
  set (t1 := dd AF_INET6 None t).
  assert (Live : forall F t, live t -> live (dd F None t)).
  { intros F [|[] [y|] z o]; cbn; auto. intros _. destruct (family_eqb F (n_family y)); cbn; auto. }
  assert (T1 : tree_ok t1).
  { split; [now apply wf_dd|]. now apply Live. }
  rewrite dedup_one_spec by auto. intros E r y N. injection E as <-.
  destruct (dd_in AF_INET6 t None r y N) as [X|(r1 & y1 & P1 & N1 & A1)]; [discriminate|].
  destruct (dd_in AF_INET t1 None r1 y1 N1) as [X|(r2 & y2 & P2 & N2 & A2)]; [discriminate|].
  exists r2, y2. split; [eapply pre_trans; eauto|]. split; auto. congruence.
Qed.
