From Coq Require Import NArith ZArith List Bool Arith Lia ZifyBool ZifyNat ZifyN.
From Verif Require Import Base ModelCountryCode ModelStringPool SpecStringPool.
Import ListNotations.
Open Scope N_scope.

Definition flat (ss : list cstr) : list N := flat_map (fun s => s ++ [0]) ss.

Lemma flat_app a b : flat (a ++ b) = flat a ++ flat b.
Proof. apply flat_map_app. Qed.

Lemma cstr_eqb_eq a : forall b, cstr_eqb a b = true <-> a = b.
Proof.
  induction a as [|x a IH]; intros [|y b]; cbn; split; intros H; try discriminate; auto.
  - apply andb_prop in H as [H1 H2]. apply IH in H2. f_equal; auto. lia.
  - injection H as <- <-. rewrite N.eqb_refl. cbn. now apply IH.
Qed.

Lemma scan_str s m : is_cstr s -> scan (s ++ 0 :: m) = Ok s.
Proof.
  induction s as [|x s IH]; intros H; cbn [app scan]; auto. inversion H; subst.
  destruct (N.eqb_spec x 0); [lia|]. rewrite IH by auto. reflexivity.
Qed.

Lemma skipn_len {A} (l m : list A) : skipn (length l) (l ++ m) = m.
Proof. rewrite skipn_app, skipn_all, Nat.sub_diag. reflexivity. Qed.

Lemma read_flat A s B : is_cstr s -> read_cstr (flat (A ++ s :: B)) (length (flat A)) = Ok s.
Proof.
  intros H. unfold read_cstr. rewrite flat_app, skipn_len. cbn [flat flat_map].
  rewrite <- app_assoc. cbn [app]. now apply scan_str.
Qed.

(** strings of a pool: all proper, the non-empty ones distinct *)
Record pool_ok (p : pool) (ss : list cstr) : Prop := {
  po_data : sp_data p = flat ss;
  po_str : Forall is_cstr ss;
  po_size : N.of_nat (length (sp_data p)) <= sp_size p;
  po_nodup : forall A B A' B' s, s <> [] -> ss = A ++ s :: B -> ss = A' ++ s :: B' -> A = A'
}.

Lemma pool_new_ok : pool_ok pool_new [].
Proof. constructor; cbn; auto; [lia|]. intros [|] B A' B' s _ H; discriminate. Qed.

Lemma flat_length_cons s B : length (flat (s :: B)) = (length s + 1 + length (flat B))%nat.
Proof. unfold flat. cbn [flat_map]. rewrite !app_length. cbn [length]. lia. Qed.

Lemma find_loop_spec p s B : forall A fuel, sp_data p = flat (A ++ B) -> Forall is_cstr (A ++ B) ->
  (length (flat B) <= fuel)%nat ->
  (pool_find_loop p s (length (flat A)) fuel = Ok None /\ ~ In s B) \/
  (exists B1 B2, B = B1 ++ s :: B2 /\ ~ In s B1 /\
     pool_find_loop p s (length (flat A)) fuel = Ok (Some (length (flat (A ++ B1))))).
Proof.
  induction B as [|b B IH]; intros A fuel D F Hf.
  - left. rewrite app_nil_r in D. split; [|auto].
    destruct fuel; cbn [pool_find_loop]; rewrite D;
      (replace (length (flat A) <? length (flat A))%nat with false by lia); reflexivity.
  - assert (L : (length (flat A) < length (sp_data p))%nat).
    { rewrite D, flat_app, app_length, flat_length_cons. lia. }
    rewrite flat_length_cons in Hf. destruct fuel as [|fuel]; [lia|]. cbn [pool_find_loop].
    replace (length (flat A) <? length (sp_data p))%nat with true by lia. unfold pool_get.
    replace (length (sp_data p) <=? length (flat A))%nat with false by lia.
    rewrite D, read_flat by (rewrite Forall_forall in F; apply F, in_or_app; cbn; auto). cbn [bind].
    destruct (cstr_eqb s b) eqn:E.
    + apply cstr_eqb_eq in E as ->. right. exists [], B. split; auto. split; auto. now rewrite app_nil_r.
    + assert (Ne : s <> b) by (intros ->; assert (cstr_eqb b b = true) by (now apply cstr_eqb_eq); congruence).
      replace (length (flat A) + (length b + 1))%nat with (length (flat (A ++ [b]))).
      2:{ rewrite flat_app, app_length, flat_length_cons. cbn. lia. }
      destruct (IH (A ++ [b]) fuel) as [[E1 N1]|(B1 & B2 & -> & N1 & E1)].
      { now rewrite <- app_assoc. } { now rewrite <- app_assoc. } { lia. }
      * left. split; auto. intros [->|X]; auto.
      * right. exists (b :: B1), B2. split; auto. split; [intros [->|X]; auto|].
        rewrite E1. rewrite <- app_assoc. reflexivity.
Qed.

Lemma find_spec p ss s : pool_ok p ss -> s <> [] ->
  (pool_find p (Some s) = Ok None /\ ~ In s ss) \/
  (exists A B, ss = A ++ s :: B /\ pool_find p (Some s) = Ok (Some (length (flat A)))).
Proof.
  intros P Ne. unfold pool_find. destruct s as [|x s]; [congruence|].
  destruct (find_loop_spec p (x :: s) ss [] (length (sp_data p))) as [H|(B1 & B2 & E & _ & H)]; auto.
  - apply P. - apply P. - rewrite (po_data _ _ P). lia.
  - right. exists B1, B2. auto.
Qed.

Lemma append_spec p ss s : pool_ok p ss -> is_cstr s -> (s <> [] -> ~ In s ss) ->
  (pool_append p (Some s) = UB /\ sp_size p + block_size < N.of_nat (length (sp_data p)) + (N.of_nat (length s) + 1)) \/
  (exists p', pool_append p (Some s) = Ok (p', length (flat ss)) /\ pool_ok p' (ss ++ [s])).
Proof.
  intros [D F Sz Nd] Hs Hn. unfold pool_append.
  set (len := N.of_nat (length s) + 1).
  set (p1 := if sp_size p <? N.of_nat (length (sp_data p)) + len then pool_grow p block_size else p).
  assert (D1 : sp_data p1 = sp_data p) by (subst p1; now destruct (_ <? _)).
  rewrite D1. destruct (N.ltb_spec (sp_size p1) (N.of_nat (length (sp_data p)) + len)) as [L|L].
  - left. split; auto. subst p1. destruct (N.ltb_spec (sp_size p) (N.of_nat (length (sp_data p)) + len)); cbn [pool_grow sp_size] in L; lia.
  - right. eexists. rewrite D. split; [reflexivity|]. constructor; cbn [sp_data sp_size].
    + rewrite flat_app. cbn [flat flat_map]. now rewrite app_nil_r.
    + apply Forall_app. split; auto.
    + rewrite !app_length. rewrite D in L. cbn [length]. subst len. lia.
    + intros A B A' B' t Ht E E'.
      assert (X : forall A B, ss ++ [s] = A ++ t :: B -> (exists B0, ss = A ++ t :: B0) \/ (A = ss /\ t = s)).
      { intros A0 B0 E0. destruct B0 as [|b B0] using rev_ind.
        - apply app_inj_tail in E0 as [-> ->]. auto.
        - left. exists B0. change (t :: B0 ++ [b]) with ((t :: B0) ++ [b]) in E0. rewrite app_assoc in E0.
          now apply app_inj_tail in E0 as [-> _]. }
      destruct (X _ _ E) as [(B0 & E1)|[-> ->]], (X _ _ E') as [(B1 & E2)|[-> E3]]; auto.
      * now apply (Nd A B0 A' B1 t).
      * subst t. exfalso. apply Hn; auto. rewrite E1. apply in_or_app; cbn; auto.
      * exfalso. apply Hn; auto. rewrite E2. apply in_or_app; cbn; auto.
Qed.

(** adding a string: either it is found, or it is appended, or memcpy overflows *)
Lemma add_spec p ss s : pool_ok p ss -> is_cstr s ->
  (pool_add p (Some s) = UB /\ sp_size p + block_size < N.of_nat (length (sp_data p)) + (N.of_nat (length s) + 1)) \/
  (exists p' tail A B, pool_add p (Some s) = Ok (p', length (flat A)) /\ pool_ok p' (ss ++ tail) /\
    ss ++ tail = A ++ s :: B /\ (tail = [] \/ tail = [s])).
Proof.
  intros P Hs. unfold pool_add. destruct s as [|x s].
  - cbn [pool_find bind]. destruct (append_spec p ss [] P Hs) as [H|(p' & E & P')]; [congruence|left; exact H|].
    right. exists p', [[]], ss, []. rewrite E. auto.
  - destruct (find_spec p ss (x :: s) P ltac:(discriminate)) as [[E N]|(A & B & E & F)].
    + rewrite E. cbn [bind]. destruct (append_spec p ss (x :: s) P Hs ltac:(auto)) as [H|(p' & E1 & P')]; [left; exact H|].
      right. exists p', [x :: s], ss, []. rewrite E1. auto.
    + right. rewrite F. cbn [bind]. exists p, [], A, B. rewrite app_nil_r. auto.
Qed.

Definition located (ss : list cstr) (s : cstr) (off : nat) : Prop :=
  exists A B, ss = A ++ s :: B /\ off = length (flat A).

Lemma located_app ss tail s off : located ss s off -> located (ss ++ tail) s off.
Proof. intros (A & B & -> & ->). exists A, (B ++ tail). split; auto. now rewrite <- app_assoc. Qed.

Lemma located_holds p ss s off : pool_ok p ss -> located ss s off ->
  holds (sp_data p) off s /\ pool_get p off = Some off /\ read_cstr (sp_data p) off = Ok s.
Proof.
  intros P (A & B & -> & ->). rewrite (po_data _ _ P). split.
  - unfold holds. rewrite flat_app, skipn_len. cbn [flat flat_map]. rewrite <- app_assoc. cbn [app].
    replace (s ++ 0 :: flat_map (fun s0 : list N => s0 ++ [0]) B) with ((s ++ [0]) ++ flat B) by now rewrite <- app_assoc.
    rewrite firstn_app. replace (length s + 1 - length (s ++ [0%N]))%nat with 0%nat by (rewrite app_length; cbn; lia).
    cbn [firstn]. rewrite app_nil_r. apply firstn_all2. rewrite app_length. cbn. lia.
  - split.
    + unfold pool_get. rewrite (po_data _ _ P), flat_app, app_length, flat_length_cons.
      replace (_ <=? _)%nat with false by lia. reflexivity.
    + apply read_flat. pose proof (po_str _ _ P) as F. rewrite Forall_forall in F. apply F, in_or_app. cbn; auto.
Qed.

Lemma located_inj p ss s o1 o2 : pool_ok p ss -> s <> [] -> located ss s o1 -> located ss s o2 -> o1 = o2.
Proof.
  intros P Ne (A & B & E & ->) (A' & B' & E' & ->). f_equal. f_equal. apply (po_nodup _ _ P A B A' B' s); auto.
Qed.

Lemma add_all_spec ss : forall p ts, pool_ok p ts -> Forall is_cstr ss ->
  forall p' offs, add_all p ss = Ok (p', offs) ->
  exists tail, pool_ok p' (ts ++ tail) /\ Forall2 (located (ts ++ tail)) ss offs /\ (forall t, In t tail -> In t ss).
Proof.
  induction ss as [|s ss IH]; intros p ts P F p' offs E; cbn [add_all] in E.
  - injection E as <- <-. exists []. rewrite app_nil_r. split; [auto|]. split; [auto|intros t []].
  - inversion F as [|? ? Hs F']; subst. destruct (add_spec p ts s P Hs) as [[X _]|(p1 & tail & A & B & E1 & P1 & E2 & Tl)].
    { rewrite X in E. discriminate. }
    rewrite E1 in E. cbn [bind] in E. destruct (add_all p1 ss) as [[p2 offs2]| | |] eqn:E3; try discriminate.
    cbn [bind] in E. injection E as <- <-.
    destruct (IH p1 (ts ++ tail) P1 F' p2 offs2 E3) as (tail2 & P2 & L2 & T2). rewrite <- app_assoc in *.
    exists (tail ++ tail2). split; auto. split.
    + constructor; auto. rewrite app_assoc. apply located_app. exists A, B. auto.
    + intros t Ht. apply in_app_or in Ht as [Ht|Ht]; [|right; auto].
      destruct Tl as [Tl|Tl]; rewrite Tl in Ht; [destruct Ht|]. destruct Ht as [Ht|Ht]; [left; auto|destruct Ht].
Qed.

Lemma add_all_refs ss p offs : Forall is_cstr ss -> add_all pool_new ss = Ok (p, offs) ->
  length offs = length ss /\
  (forall i s off, nth_error ss i = Some s -> nth_error offs i = Some off ->
     holds (sp_data p) off s /\ pool_get p off = Some off /\ read_cstr (sp_data p) off = Ok s) /\
  (forall i j s o1 o2, s <> [] -> nth_error ss i = Some s -> nth_error ss j = Some s ->
     nth_error offs i = Some o1 -> nth_error offs j = Some o2 -> o1 = o2).
Proof.
  intros F E. destruct (add_all_spec ss pool_new [] pool_new_ok F p offs E) as (tail & P & L & _). cbn [app] in *.
  assert (G : forall i s off, nth_error ss i = Some s -> nth_error offs i = Some off -> located tail s off).
  { clear -L. induction L as [|s o ss offs H L IH]; intros [|i] s' o' E1 E2; cbn in *; try discriminate; eauto.
    now injection E1 as <-; injection E2 as <-. }
  split; [clear -L; induction L; cbn [length]; auto|]. split.
  - intros i s off E1 E2. eapply located_holds; eauto.
  - intros i j s o1 o2 Ne E1 E2 E3 E4. eapply located_inj; eauto.
Qed.

Lemma add_all_safe ss : forall p ts, pool_ok p ts -> Forall is_cstr ss ->
  Forall (fun s => N.of_nat (length s) < block_size) ss -> exists p' offs, add_all p ss = Ok (p', offs).
Proof.
  induction ss as [|s ss IH]; intros p ts P F Sh; cbn [add_all]; [eauto|].
  inversion F as [|? ? Hs F']; inversion Sh as [|? ? Hl Sh']; subst.
  destruct (add_spec p ts s P Hs) as [[_ X]|(p1 & tail & A & B & E1 & P1 & _)].
  - pose proof (po_size _ _ P). exfalso. lia.
  - rewrite E1. cbn [bind]. destruct (IH p1 (ts ++ tail) P1 F' Sh') as (p2 & offs & ->). cbn [bind]. eauto.
Qed.

Lemma add_all_short ss : Forall is_cstr ss -> Forall (fun s => N.of_nat (length s) < block_size) ss ->
  exists p offs, add_all pool_new ss = Ok (p, offs) /\ N.of_nat (length (sp_data p)) <= sp_size p.
Proof.
  intros F Sh. destruct (add_all_safe ss pool_new [] pool_new_ok F Sh) as (p & offs & E).
  exists p, offs. split; auto. destruct (add_all_spec ss pool_new [] pool_new_ok F p offs E) as (tail & P & _ & _). apply P.
Qed.

Lemma add_long p ss s : pool_ok p ss -> is_cstr s -> ~ In s ss ->
  sp_size p + block_size < N.of_nat (length (sp_data p)) + (N.of_nat (length s) + 1) -> pool_add p (Some s) = UB.
Proof.
  intros P Hs Nin L. unfold pool_add. destruct s as [|x s]; [cbn [length] in L; pose proof (po_size _ _ P); unfold block_size in *; lia|].
  destruct (find_spec p ss (x :: s) P ltac:(discriminate)) as [[E N]|(A & B & E & F)].
  - rewrite E. cbn [bind]. destruct (append_spec p ss (x :: s) P Hs ltac:(auto)) as [[H _]|(p' & E1 & P')]; auto.
    exfalso. pose proof (po_size _ _ P') as Z. unfold pool_append in E1.
    destruct (sp_size p <? N.of_nat (length (sp_data p)) + (N.of_nat (length (x :: s)) + 1)) eqn:C; cbn [sp_size sp_data pool_grow] in E1;
      (match type of E1 with (if ?b then _ else _) = _ => destruct b eqn:C2 end); try discriminate; unfold block_size in *; lia.
  - exfalso. apply Nin. rewrite E. apply in_or_app; cbn; auto.
Qed.

Lemma add_all_long ss p offs s : Forall is_cstr ss -> add_all pool_new ss = Ok (p, offs) -> is_cstr s -> ~ In s ss ->
  sp_size p + block_size < N.of_nat (length (sp_data p)) + (N.of_nat (length s) + 1) -> pool_add p (Some s) = UB.
Proof.
  intros F E Hs Nin L. destruct (add_all_spec ss pool_new [] pool_new_ok F p offs E) as (tail & P & _ & T).
  apply (add_long p tail); auto.
Qed.

Lemma long_overflows : exists s, is_cstr s /\ pool_add pool_new (Some s) = UB.
Proof.
  exists (repeat 65 (N.to_nat block_size)). assert (C : is_cstr (repeat 65 (N.to_nat block_size))).
  { apply Forall_forall. intros x Hx. apply repeat_spec in Hx. subst. lia. }
  split; [exact C|]. apply (add_long pool_new []); [apply pool_new_ok|exact C|exact (fun x => x)|].
  rewrite repeat_length. change (length (sp_data pool_new)) with 0%nat. change (sp_size pool_new) with 0. lia.
Qed.
