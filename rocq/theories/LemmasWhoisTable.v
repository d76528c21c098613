(** Proofs about the tables of WHOIS data: values that are set by the last statement or kept from the first one *)
From Coq Require Import String.
From Coq Require Import NArith ZArith List Bool Permutation Lia ZifyBool ZifyNat ZifyN.
From Verif Require Import Base ModelCountryCode ModelStringPool SpecText LemmasStringPool ModelImport SpecImport LemmasImport
  LemmasImportTable ModelCompile ModelGeofeed SpecGeofeed LemmasGeofeed ModelOverrides SpecOverrides LemmasOverrides
  ModelFeeds SpecFeeds LemmasFeeds ModelWhois SpecWhois.
Import ListNotations.
Open Scope N_scope.

Section Table.
  Context {K V : Type}.
  Variable eqb : K -> K -> bool.
  Hypothesis eqb_iff : forall a b, eqb a b = true <-> a = b.
  Lemma find_in : forall (t : list (K * V)) k v, NoDup (map fst t) -> (find_key eqb k t = Some v <-> In (k, v) t).
  Proof.
    induction t as [|[k' v'] t IH]; intros k v D; cbn [find_key In]; [split; [discriminate|intros []]|].
    cbn [map fst] in D. apply NoDup_cons_iff in D as [N0 D]. destruct (eqb k' k) eqn:E.
    - apply eqb_iff in E. subst k'. split; [intros H; left; congruence|]. intros [H|H]; [congruence|]. exfalso. apply N0. apply (in_map fst) in H. exact H.
    - rewrite (IH k v D). split; [now right|]. intros [H|H]; [|exact H]. injection H as -> ->. assert (eqb k k = true) by now apply eqb_iff. congruence.
  Qed.
  Lemma find_none : forall (t : list (K * V)) k, find_key eqb k t = None <-> forall v, ~ In (k, v) t.
  Proof.
    induction t as [|[k' v'] t IH]; intros k; cbn [find_key In]; [split; [intros _ v []|reflexivity]|]. destruct (eqb k' k) eqn:E.
    - apply eqb_iff in E. subst k'. split; [discriminate|]. intros H. exfalso. apply (H v'). now left.
    - rewrite IH. split; [intros H v [X|X]; [|exact (H v X)]|intros H v X; apply (H v); now right].
      injection X as -> ->. assert (eqb k k = true) by now apply eqb_iff. congruence.
  Qed.
  Lemma find_upsert : forall (t : list (K * V)) k k' new merge,
    find_key eqb k (upsert eqb k' new merge t) = if eqb k' k then Some (match find_key eqb k t with Some v => merge v | None => new end) else find_key eqb k t.
  Proof.
    induction t as [|[k0 v0] t IH]; intros k k' new merge; cbn [upsert find_key]; [reflexivity|].
    destruct (eqb k0 k') eqn:E0; cbn [find_key].
    - apply eqb_iff in E0. subst k0. destruct (eqb k' k); reflexivity.
    - destruct (eqb k0 k) eqn:E1.
      + destruct (eqb k' k) eqn:E2; [|reflexivity]. apply eqb_iff in E1, E2. subst. assert (eqb k k = true) by now apply eqb_iff. congruence.
      + apply IH.
  Qed.
  Lemma upsert_keys : forall (t : list (K * V)) k new merge x, In x (map fst (upsert eqb k new merge t)) <-> x = k \/ In x (map fst t).
  Proof.
    induction t as [|[k0 v0] t IH]; intros k new merge x; cbn [upsert map fst In]; [split; intros [H|[]]; left; congruence|].
    destruct (eqb k0 k) eqn:E; cbn [map fst In].
    - apply eqb_iff in E. subst. split; [intros [H|H]; auto|intros [H|[H|H]]; auto].
    - rewrite IH. split; [intros [H|[H|H]]; auto|intros [H|[H|H]]; auto].
  Qed.
  Lemma upsert_nodup : forall (t : list (K * V)) k new merge, NoDup (map fst t) -> NoDup (map fst (upsert eqb k new merge t)).
  Proof.
    induction t as [|[k0 v0] t IH]; intros k new merge D; cbn [upsert map fst]; [repeat constructor; intros []|].
    cbn [map fst] in D. apply NoDup_cons_iff in D as [N0 D]. destruct (eqb k0 k) eqn:E; cbn [map fst].
    - now constructor.
    - constructor; [|now apply IH]. rewrite upsert_keys. intros [->|H]; [|contradiction]. assert (eqb k k = true) by now apply eqb_iff. congruence.
  Qed.
End Table.

(** ** The last one sets the value, the first one is used if nothing sets it *)
Section Fold.
  Context {B V : Type}.
  Definition steps (P Q : B -> V -> Prop) (step : option V -> B -> option V) (b : B) : Prop := forall o,
    (forall v, P b v -> step o b = Some v) /\
    ((forall v, ~ P b v) -> (forall v, Q b v -> step o b = Some (match o with Some x => x | None => v end)) /\ ((forall v, ~ Q b v) -> step o b = o)).
  Definition decided (P : B -> V -> Prop) (b : B) : Prop := (exists v, P b v) \/ forall v, ~ P b v.
  Definition last_of (P : B -> V -> Prop) (l : list B) (v : V) : Prop := exists x b y, l = x ++ b :: y /\ P b v /\ forall b' v', In b' y -> ~ P b' v'.
  Definition first_of (P : B -> V -> Prop) (l : list B) (v : V) : Prop := exists x b y, l = x ++ b :: y /\ P b v /\ forall b' v', In b' x -> ~ P b' v'.
  Definition none_of (P : B -> V -> Prop) (l : list B) : Prop := forall b v, In b l -> ~ P b v.
  Lemma last_cons : forall P b l v, last_of P (b :: l) v <-> last_of P l v \/ (none_of P l /\ P b v).
  Proof.
    intros P b l v. split.
    - intros ([|b0 x] & c & y & E & H & N0); cbn [app] in E; injection E as -> ->; [right; split; [exact N0|exact H]|left; now exists x, c, y].
    - intros [(x & c & y & -> & H & N0)|(N0 & H)]; [now exists (b :: x), c, y|]. now exists [], b, l.
  Qed.
  Lemma first_cons : forall P b l v, first_of P (b :: l) v <-> P b v \/ ((forall v, ~ P b v) /\ first_of P l v).
  Proof.
    intros P b l v. split.
    - intros ([|b0 x] & c & y & E & H & N0); cbn [app] in E; injection E as -> ->; [now left|right]. split; [intros w; apply N0; now left|].
      exists x, c, y. split; [reflexivity|]. split; [exact H|]. intros b' v' I1. apply N0. now right.
    - intros [H|(N1 & x & c & y & -> & H & N0)]; [exists [], b, l; split; [reflexivity|split; [exact H|intros ? ? []]]|].
      exists (b :: x), c, y. split; [reflexivity|]. split; [exact H|]. intros b' v' [<-|I1]; [apply N1|now apply N0].
  Qed.
  Lemma none_cons : forall P b l, none_of P (b :: l) <-> (forall v, ~ P b v) /\ none_of P l.
  Proof.
    intros P b l. split; [intros H; split; [intros v; apply H; now left|intros c v I1; apply H; now right]|].
    intros (H1 & H2) c v [<-|I1]; [apply H1|now apply H2].
  Qed.
  Lemma last_not_none : forall P l v, last_of P l v -> ~ none_of P l.
  Proof. intros P l v (x & b & y & -> & H & _) N0. apply (N0 b v); [apply in_or_app; right; now left|exact H]. Qed.
  Lemma last_or_none : forall P l, (forall b, In b l -> decided P b) -> (exists v, last_of P l v) \/ none_of P l.
  Proof.
    induction l as [|b l IH]; intros D; [right; intros ? ? []|]. destruct IH as [(v & H)|N0]; [intros c I1; apply D; now right| |].
    - left. exists v. apply last_cons. now left.
    - destruct (D b (or_introl eq_refl)) as [(v & H)|N1]; [left; exists v; apply last_cons; now right|right; now apply none_cons].
  Qed.
  Lemma folded : forall P Q step l o, (forall b, In b l -> steps P Q step b) -> (forall b, In b l -> decided P b) -> (forall b, In b l -> decided Q b) ->
    forall v, fold_left step l o = Some v <->
      last_of P l v \/ (none_of P l /\ (o = Some v \/ (o = None /\ first_of Q l v))).
  Proof.
    induction l as [|b l IH]; intros o Hs Dp Dq v.
    - cbn [fold_left]. split.
      + intros ->. right. split; [intros ? ? []|now left].
      + intros [(x & c & y & E & _)|(_ & [H|(_ & x & c & y & E & _)])]; [now destruct x|exact H|now destruct x].
    - cbn [fold_left]. rewrite IH by (intros c I1; first [apply Hs|apply Dp|apply Dq]; now right).
      destruct (Hs b (or_introl eq_refl) o) as (H1 & H2). rewrite last_cons, none_cons, first_cons.
      destruct (Dp b (or_introl eq_refl)) as [(w & Hw)|Np].
      + rewrite (H1 w Hw). split.
        * intros [H|(N0 & [H|(H & _)])]; [left; now left| |discriminate]. injection H as <-. left. right. auto.
        * intros [[H|(N0 & H)]|((N1 & _) & _)]; [now left| |now apply N1 in Hw]. right. split; [exact N0|left].
          rewrite <- (H1 v H). symmetry. exact (H1 w Hw).
      + destruct (H2 Np) as (H3 & H4). destruct (Dq b (or_introl eq_refl)) as [(w & Hw)|Nq].
        * rewrite (H3 w Hw). split.
          -- intros [H|(N0 & [H|(H & _)])]; [left; now left| |discriminate]. right. split; [auto|]. destruct o as [u|]; [left; exact H|right].
             split; [reflexivity|]. left. injection H as <-. exact Hw.
          -- intros [[H|(_ & H)]|((_ & N0) & [H|(H & [X|(N1 & _)])])]; [now left|now apply Np in H| | |now apply N1 in Hw].
             ++ subst o. right. split; [exact N0|now left].
             ++ subst o. right. split; [exact N0|left]. rewrite <- (H3 v X). symmetry. exact (H3 w Hw).
        * rewrite (H4 Nq). split.
          -- intros [H|(N0 & [H|(H & X)])]; [left; now left|right; split; [auto|now left]|right; split; [auto|right; auto]].
          -- intros [[H|(_ & H)]|((_ & N0) & [H|(H & [X|(_ & X)])])]; [now left|now apply Np in H|right; auto|now apply Nq in X|right; auto].
  Qed.
  Lemma folded_none : forall P Q step l o, (forall b, In b l -> steps P Q step b) -> (forall b, In b l -> decided P b) -> (forall b, In b l -> decided Q b) ->
    (fold_left step l o = None <-> none_of P l /\ o = None /\ none_of Q l).
  Proof.
    induction l as [|b l IH]; intros o Hs Dp Dq.
    - cbn [fold_left]. split; [intros ->; repeat split; intros ? ? []|intros (_ & H & _); exact H].
    - cbn [fold_left]. rewrite IH by (intros c I1; first [apply Hs|apply Dp|apply Dq]; now right).
      destruct (Hs b (or_introl eq_refl) o) as (H1 & H2). rewrite !none_cons.
      destruct (Dp b (or_introl eq_refl)) as [(w & Hw)|Np].
      + rewrite (H1 w Hw). split; [intros (_ & H & _); discriminate|]. intros ((N1 & _) & _). now apply N1 in Hw.
      + destruct (H2 Np) as (H3 & H4). destruct (Dq b (or_introl eq_refl)) as [(w & Hw)|Nq].
        * rewrite (H3 w Hw). split; [intros (_ & H & _); discriminate|]. intros (_ & _ & N1 & _). now apply N1 in Hw.
        * rewrite (H4 Nq). tauto.
  Qed.
  Lemma fold_ext : forall (step step' : option V -> B -> option V) l o, (forall o b, step o b = step' o b) -> fold_left step l o = fold_left step' l o.
  Proof. intros step step' l. induction l as [|b l IH]; intros o H; [reflexivity|]. cbn [fold_left]. rewrite H. now apply IH. Qed.
End Fold.

(** ** Items that make several statements *)
Section Lift.
  Context {B I0 V : Type}.
  Variable g : I0 -> list B.
  Definition in_item (P : B -> V -> Prop) (i : I0) (v : V) : Prop := exists b, In b (g i) /\ P b v.
  Definition single (P : B -> V -> Prop) (i : I0) : Prop := forall v v', in_item P i v -> in_item P i v' -> v = v'.
  Lemma fold_concat : forall (step : option V -> B -> option V) items o,
    fold_left step (concat (map g items)) o = fold_left (fun o i => fold_left step (g i) o) items o.
  Proof.
    intros step items. induction items as [|i items IH]; intros o; [reflexivity|]. cbn [map concat fold_left]. rewrite fold_left_app. apply IH.
  Qed.
  Lemma in_item_decided : forall P i, (forall b, In b (g i) -> decided P b) -> decided (in_item P) i.
  Proof.
    intros P i H. destruct (last_or_none P (g i) H) as [(v & x & b & y & E & Hb & _)|N0].
    - left. exists v, b. split; [rewrite E; apply in_or_app; right; now left|exact Hb].
    - right. intros v (b & I1 & Hb). exact (N0 b v I1 Hb).
  Qed.
  Lemma lift_steps : forall P Q step i, (forall b, In b (g i) -> steps P Q step b) -> (forall b, In b (g i) -> decided P b) -> (forall b, In b (g i) -> decided Q b) ->
    single P i -> single Q i -> steps (in_item P) (in_item Q) (fun o i => fold_left step (g i) o) i.
  Proof.
    intros P Q step i Hs Dp Dq Sp Sq o. split.
    - intros v Hv. apply (folded P Q step (g i) o Hs Dp Dq). left. destruct (last_or_none P (g i) Dp) as [(w & Hw)|N0].
      + replace v with w; [exact Hw|]. apply Sp; [|exact Hv]. destruct Hw as (x & b & y & E & Hb & _). exists b. split; [rewrite E; apply in_or_app; right; now left|exact Hb].
      + destruct Hv as (b & I1 & Hb). now apply (N0 b v) in I1.
    - intros Np. assert (N0 : none_of P (g i)) by (intros b v I1 Hb; apply (Np v); now exists b). split.
      + intros v (b & I1 & Hb). apply (folded P Q step (g i) o Hs Dp Dq). right. split; [exact N0|]. destruct o as [u|]; [now left|right; split; [reflexivity|]].
        destruct (fold_left step (g i) None) as [w|] eqn:F.
        * apply (folded P Q step (g i) None Hs Dp Dq) in F as [(x & c & y & E & Hc & _)|(_ & [X|(_ & F)])]; [|discriminate|].
          -- exfalso. apply (N0 c w); [rewrite E; apply in_or_app; right; now left|exact Hc].
          -- replace v with w; [exact F|]. destruct F as (x & c & y & E & Hc & _). apply Sq; [|now exists b].
             exists c. split; [rewrite E; apply in_or_app; right; now left|exact Hc].
        * apply (folded_none P Q step (g i) None Hs Dp Dq) in F as (_ & _ & F). now apply (F b v) in I1.
      + intros Nq. destruct o as [u|].
        * apply (folded P Q step (g i) (Some u) Hs Dp Dq). right. split; [exact N0|now left].
        * apply (folded_none P Q step (g i) None Hs Dp Dq). split; [exact N0|]. split; [reflexivity|]. intros b v I1 Hb. apply (Nq v). now exists b.
  Qed.
  Lemma lifted : forall P Q step items o, (forall b, steps P Q step b) -> (forall b, decided P b) -> (forall b, decided Q b) ->
    (forall i, In i items -> single P i) -> (forall i, In i items -> single Q i) ->
    forall v, fold_left step (concat (map g items)) o = Some v <->
      last_of (in_item P) items v \/ (none_of (in_item P) items /\ (o = Some v \/ (o = None /\ first_of (in_item Q) items v))).
  Proof.
    intros P Q step items o Hs Dp Dq Sp Sq v. rewrite fold_concat.
    apply (folded (in_item P) (in_item Q)); intros i I1; [apply lift_steps; auto|apply in_item_decided; auto|apply in_item_decided; auto].
  Qed.
End Lift.
Lemma last_of_iff : forall {B V} (P Q : B -> V -> Prop) l v, (forall b v, In b l -> (P b v <-> Q b v)) -> (last_of P l v <-> last_of Q l v).
Proof.
  assert (X : forall {B V} (P Q : B -> V -> Prop) l v, (forall b v, In b l -> (P b v <-> Q b v)) -> last_of P l v -> last_of Q l v).
  { intros B V P Q l v H (x & b & y & -> & Hb & N0). exists x, b, y. split; [reflexivity|]. split; [apply H; [apply in_or_app; right; now left|exact Hb]|].
    intros b' v' I1 Hq. apply (N0 b' v' I1). apply H; [apply in_or_app; right; now right|exact Hq]. }
  intros B V P Q l v H. split; apply X; [exact H|intros; symmetry; now apply H].
Qed.
Lemma first_of_iff : forall {B V} (P Q : B -> V -> Prop) l v, (forall b v, In b l -> (P b v <-> Q b v)) -> (first_of P l v <-> first_of Q l v).
Proof.
  assert (X : forall {B V} (P Q : B -> V -> Prop) l v, (forall b v, In b l -> (P b v <-> Q b v)) -> first_of P l v -> first_of Q l v).
  { intros B V P Q l v H (x & b & y & -> & Hb & N0). exists x, b, y. split; [reflexivity|]. split; [apply H; [apply in_or_app; right; now left|exact Hb]|].
    intros b' v' I1 Hq. apply (N0 b' v' I1). apply H; [apply in_or_app; now left|exact Hq]. }
  intros B V P Q l v H. split; apply X; [exact H|intros; symmetry; now apply H].
Qed.
Lemma none_of_iff : forall {B V} (P Q : B -> V -> Prop) l, (forall b v, In b l -> (P b v <-> Q b v)) -> (none_of P l <-> none_of Q l).
Proof. intros B V P Q l H. split; intros N0 b v I1 Hb; apply (N0 b v I1); now apply H. Qed.
