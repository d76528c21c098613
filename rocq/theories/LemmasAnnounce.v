(** Proofs about the import of announcements *)
From Coq Require Import String.
From Coq Require Import NArith ZArith List Bool Lia ZifyBool ZifyNat ZifyN.
From Verif Require Import Base ModelCountryCode ModelStringPool SpecText LemmasStringPool ModelImport SpecImport
  LemmasImportRange LemmasImportTable ModelCompile ModelAnnounce SpecAnnounce.
Import ListNotations.
Open Scope N_scope.

(** ** What is deleted *)
Lemma purge_in : forall now t r, In r (purge now t) <-> In r t /\ forall d, In d (deletes now) -> d r = false.
Proof.
  intros now t r. unfold purge. generalize (deletes now). intros ds. revert t.
  induction ds as [|d ds IH]; intros t; cbn [fold_left].
  - split; [intros I1; split; [exact I1|intros d []]|tauto].
  - rewrite IH, filter_In. split.
    + intros [[I1 D] R]. split; [exact I1|]. intros e [<-|I2]; [now apply negb_true_iff|auto].
    + intros [I1 R]. split; [split; [exact I1|]|]; [apply negb_true_iff, R; now left|]. intros e I2. apply R. now right.
Qed.

Lemma contains_between : forall n m, net_wf n -> net_wf m -> p_bits n = p_bits m ->
  (contains n m = true <-> between (p_base n) (p_base n + size_of n - 1) m).
Proof.
  intros n m Wn Wm B. pose proof (size_pos m) as Pm. pose proof (size_pos n) as Pn. split.
  - intros C. unfold contains in C. apply andb_true_iff in C as [C Q]. apply andb_true_iff in C as [_ L].
    apply N.leb_le in L. apply N.eqb_eq in Q. intros v H.
    assert (X : holds n (p_base m)).
    { fold (size_of n) in Q. unfold holds. destruct (base_mult _ Wn) as [x X]. rewrite X in Q |- *.
      rewrite N.div_mul in Q by lia. pose proof (N.div_mod (p_base m) (size_of n)) as D.
      pose proof (N.mod_lt (p_base m) (size_of n)) as M. rewrite <- Q in D. nia. }
    pose proof (nested m n (p_base m) Wm Wn (eq_sym B) L) as Z.
    assert (Y : holds m (p_base m)) by (unfold holds; lia).
    specialize (Z Y X v H). unfold holds in Z. lia.
  - intros H. assert (H1 : holds m (p_base m)) by (unfold holds; lia). apply H in H1.
    assert (H2 : holds m (p_base m + size_of m - 1)) by (unfold holds; lia). apply H in H2.
    assert (S1 : size_of m <= size_of n) by lia.
    assert (L : p_len n <= p_len m).
    { destruct Wn as (_ & Ln & _), Wm as (_ & Lm & _). unfold size_of in S1. apply N.pow_le_mono_r_iff in S1; lia. }
    unfold contains. replace (p_bits n =? p_bits m) with true by lia. replace (p_len n <=? p_len m) with true by lia.
    cbn [andb]. fold (size_of n). apply N.eqb_eq. destruct (base_mult _ Wn) as [x X]. rewrite X in *.
    rewrite N.div_mul by lia. apply (N.div_unique _ _ x (p_base m - x * size_of n)); lia.
Qed.
Lemma in4_false : forall q f l r, p_bits q = 32 -> net_wf q -> p_base q = f -> p_base q + size_of q - 1 = l -> net_wf (an_net r) ->
  p_bits (an_net r) = 32 -> (in4 q r = false <-> ~ between f l (an_net r)).
Proof.
  intros q f l r B W <- <- Wr Br. rewrite <- contains_between by (auto; congruence). unfold in4.
  rewrite Br, N.eqb_refl. cbn [andb]. destruct (contains q (an_net r)); split; intros; congruence.
Qed.
Lemma in4_other : forall q r, p_bits (an_net r) = 128 -> in4 q r = false.
Proof. intros q r B. unfold in4. now rewrite B. Qed.
Ltac wf_quad := split; [left; reflexivity|]; split; [vm_compute; discriminate|]; split; [vm_compute; reflexivity|vm_compute; reflexivity].
Ltac wf_v6 := split; [right; reflexivity|]; split; [vm_compute; discriminate|]; split; [vm_compute; reflexivity|vm_compute; reflexivity].
Lemma public_iff : forall a, negb (public_as a) = false <-> public a.
Proof. intros a. unfold public_as, public. lia. Qed.
Lemma size_least : forall n k, net_wf n -> k <= p_bits n -> (2 ^ k <= size_of n <-> p_len n <= p_bits n - k).
Proof.
  intros n k (_ & L & _) K. unfold size_of. rewrite <- N.pow_le_mono_r_iff by lia. lia.
Qed.
Lemma default_iff : forall r, net_wf (an_net r) -> p_bits (an_net r) = 32 ->
  (pnet_eqb (an_net r) (v6 0 0) || pnet_eqb (an_net r) (quad 0 0 0 0 0) = false <-> size_of (an_net r) < 2 ^ 32).
Proof.
  intros r W B. replace (pnet_eqb (an_net r) (v6 0 0)) with false by (unfold pnet_eqb; rewrite B; reflexivity). cbn [orb].
  rewrite N.lt_nge, (size_least _ 32 W) by (rewrite B; lia). rewrite B. change (32 - 32) with 0.
  destruct W as (_ & _ & M & Lt). unfold size_of in M. rewrite B in M, Lt. unfold pnet_eqb. rewrite B.
  change (p_bits (quad 0 0 0 0 0)) with 32. change (p_base (quad 0 0 0 0 0)) with 0. change (p_len (quad 0 0 0 0 0)) with 0.
  destruct (N.eq_dec (p_len (an_net r)) 0) as [Z|Z].
  - rewrite Z in M. change (32 - 0) with 32 in M. rewrite N.mod_small in M by exact Lt. rewrite M, Z. cbn.
    split; [discriminate|intros X; exfalso; apply X; lia].
  - replace (p_len (an_net r) =? 0) with false by lia. rewrite andb_false_r. split; [intros _; lia|reflexivity].
Qed.
Lemma default6 : forall r, net_wf (an_net r) -> p_bits (an_net r) = 128 ->
  contains (v6 8192 3) (an_net r) = true ->
  pnet_eqb (an_net r) (v6 0 0) || pnet_eqb (an_net r) (quad 0 0 0 0 0) = false.
Proof.
  intros r W B C. replace (pnet_eqb (an_net r) (quad 0 0 0 0 0)) with false by (unfold pnet_eqb; rewrite B; reflexivity).
  destruct (pnet_eqb (an_net r) (v6 0 0)) eqn:E; [|reflexivity]. apply pnet_eqb_eq in E. rewrite E in C. discriminate.
Qed.
Lemma recent_iff : forall now seen, (seen <=? now - two_weeks)%Z = false <-> recent now seen.
Proof. intros now seen. unfold recent. change two_weeks with (14 * 86400 * 1000000)%Z. lia. Qed.
Lemma reserved_iff : forall n, (forall f l, In (f, l) reserved -> ~ between f l n) <-> Forall (fun x => ~ between (fst x) (snd x) n) reserved.
Proof. intros n. rewrite Forall_forall. split; [intros H [f l]; apply H|intros H f l I1; apply (H (f, l) I1)]. Qed.
Ltac conv q f l r W B :=
  rewrite (in4_false q f l r eq_refl ltac:(wf_quad) ltac:(vm_compute; reflexivity) ltac:(vm_compute; reflexivity) W B).
Lemma kept4 : forall now r, net_wf (an_net r) -> p_bits (an_net r) = 32 ->
  (Forall (fun d => d r = false) (deletes now) <-> kept now r).
Proof.
  intros now r W B. unfold deletes. rewrite !Forall_cons_iff. cbv beta. unfold kept.
  rewrite public_iff, recent_iff, (default_iff r W B).
  conv (quad 0 0 0 0 8) (ip 0 0 0 0) (ip 0 255 255 255) r W B.
  conv (quad 127 0 0 0 8) (ip 127 0 0 0) (ip 127 255 255 255) r W B.
  conv (quad 10 0 0 0 8) (ip 10 0 0 0) (ip 10 255 255 255) r W B.
  conv (quad 172 16 0 0 12) (ip 172 16 0 0) (ip 172 31 255 255) r W B.
  conv (quad 192 168 0 0 16) (ip 192 168 0 0) (ip 192 168 255 255) r W B.
  conv (quad 192 0 0 0 24) (ip 192 0 0 0) (ip 192 0 0 255) r W B.
  conv (quad 192 0 2 0 24) (ip 192 0 2 0) (ip 192 0 2 255) r W B.
  conv (quad 198 18 0 0 15) (ip 198 18 0 0) (ip 198 19 255 255) r W B.
  conv (quad 198 51 100 0 24) (ip 198 51 100 0) (ip 198 51 100 255) r W B.
  conv (quad 203 0 113 0 24) (ip 203 0 113 0) (ip 203 0 113 255) r W B.
  conv (quad 100 64 0 0 10) (ip 100 64 0 0) (ip 100 127 255 255) r W B.
  conv (quad 169 254 0 0 16) (ip 169 254 0 0) (ip 169 254 255 255) r W B.
  conv (quad 192 88 99 0 24) (ip 192 88 99 0) (ip 192 88 99 255) r W B.
  conv (quad 224 0 0 0 4) (ip 224 0 0 0) (ip 239 255 255 255) r W B.
  conv (quad 240 0 0 0 4) (ip 240 0 0 0) (ip 255 255 255 255) r W B.
  assert (D : (24 <? p_len (an_net r)) = false <-> 256 <= size_of (an_net r)).
  { change 256 with (2 ^ 8). rewrite (size_least _ 8 W) by (rewrite B; lia). rewrite B. change (32 - 8) with 24. lia. }
  rewrite B. change (32 =? 128) with false. change (32 =? 32) with true. cbn [andb]. rewrite D. clear D.
  unfold routable. rewrite reserved_iff, B. unfold reserved. rewrite !Forall_cons_iff. cbn [fst snd].
  assert (X : 32 = 128 <-> False) by (split; [discriminate|tauto]). rewrite X.
  assert (Y : 32 = 32 <-> True) by tauto. rewrite Y.
  assert (Z1 : forall A (P : A -> Prop), Forall P [] <-> True) by (intros; split; auto). rewrite !Z1.
  assert (Z2 : false = false <-> True) by tauto. rewrite Z2. clear X Y Z1 Z2 W B. split.
  - intros H. decompose [and] H. clear H. split; [left|split; assumption]. repeat (assumption || exact Logic.I || apply conj).
  - intros ([(_ & [S1 S2] & R) | ([] & _)] & P & Q). decompose [and] R. clear R. repeat (assumption || exact Logic.I || apply conj).
Qed.
Lemma kept6 : forall now r, net_wf (an_net r) -> p_bits (an_net r) = 128 ->
  (Forall (fun d => d r = false) (deletes now) <-> kept now r).
Proof.
  intros now r W B. unfold deletes. rewrite !Forall_cons_iff. cbv beta. unfold kept.
  rewrite public_iff, recent_iff, !(in4_other _ r B).
  pose proof (contains_between (v6 8192 3) (an_net r) ltac:(wf_v6) W (eq_sym B)) as C1.
  pose proof (contains_between (v6 8194 16) (an_net r) ltac:(wf_v6) W (eq_sym B)) as C2.
  change (between (p_base (v6 8192 3)) (p_base (v6 8192 3) + size_of (v6 8192 3) - 1) (an_net r))
    with (between (8192 * 2 ^ 112) (8192 * 2 ^ 112 + 2 ^ 125 - 1) (an_net r)) in C1.
  change (between (p_base (v6 8194 16)) (p_base (v6 8194 16) + size_of (v6 8194 16) - 1) (an_net r))
    with (between (8194 * 2 ^ 112) (8194 * 2 ^ 112 + 2 ^ 112 - 1) (an_net r)) in C2.
  replace (8192 * 2 ^ 112 + 2 ^ 125 - 1) with (0x4000 * 2 ^ 112 - 1) in C1 by (vm_compute; reflexivity).
  replace (8194 * 2 ^ 112 + 2 ^ 112 - 1) with (0x2003 * 2 ^ 112 - 1) in C2 by (vm_compute; reflexivity).
  pose proof (default6 r W B) as D0.
  assert (D : (48 <? p_len (an_net r)) = false <-> 2 ^ 80 <= size_of (an_net r)).
  { rewrite (size_least _ 80 W) by (rewrite B; lia). rewrite B. change (128 - 80) with 48. lia. }
  rewrite B. change (128 =? 32) with false. change (128 =? 128) with true. cbn [andb]. rewrite D. clear D.
  unfold routable. rewrite B.
  assert (X : 128 = 32 <-> False) by (split; [discriminate|tauto]). rewrite X.
  assert (Y : 128 = 128 <-> True) by tauto. rewrite Y.
  assert (Z1 : forall A (P : A -> Prop), Forall P [] <-> True) by (intros; split; auto). rewrite !Z1.
  assert (Z2 : false = false <-> True) by tauto. rewrite !Z2.
  rewrite <- C1, <- C2. destruct (contains (v6 8192 3) (an_net r)), (contains (v6 8194 16) (an_net r)); cbn [negb];
    assert (Z3 : true = false <-> False) by (split; [discriminate|tauto]);
    assert (Z4 : true = true <-> True) by tauto; assert (Z5 : false = true <-> False) by (split; [discriminate|tauto]);
    rewrite ?Z2, ?Z3, ?Z4, ?Z5; tauto.
Qed.
Lemma purge_kept : forall now t r, net_wf (an_net r) -> (In r (purge now t) <-> In r t /\ kept now r).
Proof.
  intros now t r W. rewrite purge_in, <- Forall_forall. pose proof W as [[B|B] _].
  - now rewrite (kept4 now r W B).
  - now rewrite (kept6 now r W B).
Qed.

(** ** Regular expressions *)
Lemma lazy_in : forall class s p r, In (p, r) (lazy class s) <-> s = p ++ r /\ Forall (fun c => class c = true) p.
Proof.
  intros class. induction s as [|c s IH]; intros p r; cbn [lazy].
  - split; [intros [E|[]]; injection E as <- <-; split; [reflexivity|constructor]|].
    intros [E _]. symmetry in E. apply app_eq_nil in E as [-> ->]. now left.
  - split.
    + intros [E|I1]; [injection E as <- <-; split; [reflexivity|constructor]|].
      destruct (class c) eqn:C; [|destruct I1]. apply in_map_iff in I1 as [[p' r'] [E I1]]. cbn [fst snd] in E.
      injection E as <- <-. apply IH in I1 as [-> F]. split; [reflexivity|now constructor].
    + intros [E F]. destruct p as [|x p]; [cbn [app] in E; subst r; now left|]. right.
      cbn [app] in E. injection E as <- E. apply Forall_cons_iff in F as [C F]. rewrite C.
      apply in_map_iff. exists (p, r). split; [reflexivity|]. apply IH. now split.
Qed.
(** the shorter ways come first *)
Lemma lazy_at : forall class p r, Forall (fun c => class c = true) p ->
  exists l1 l2, lazy class (p ++ r) = l1 ++ (p, r) :: l2 /\
    forall p' r', In (p', r') l1 -> exists q, q <> [] /\ p = p' ++ q /\ r' = q ++ r.
Proof.
  intros class. induction p as [|c p IH]; intros r F.
  - exists []. cbn [app]. destruct r as [|x r]; cbn [lazy]; eexists; (split; [reflexivity|intros p' r' []]).
  - apply Forall_cons_iff in F as [C F]. destruct (IH r F) as (l1 & l2 & E & H). cbn [app lazy]. rewrite C, E, map_app. cbn [map fst snd].
    exists (([], c :: p ++ r) :: map (fun x => (c :: fst x, snd x)) l1), (map (fun x => (c :: fst x, snd x)) l2).
    split; [reflexivity|]. intros p' r' [X|I1]; [injection X as <- <-; now exists (c :: p)|].
    apply in_map_iff in I1 as [[p2 r2] [X I1]]. cbn [fst snd] in X. injection X as <- <-. destruct (H _ _ I1) as (q & Q & -> & ->).
    exists q. now split.
Qed.
(** everything that can be taken *)
Lemma greedy_at : forall class p r, Forall (fun c => class c = true) p ->
  (forall c r', r = c :: r' -> class c = false) -> exists l, greedy class (p ++ r) = (p, r) :: l.
Proof.
  intros class p r F H. unfold greedy.
  assert (X : exists l, lazy class (p ++ r) = l ++ [(p, r)]).
  { induction F as [|c p C F IH]; cbn [app].
    - exists []. destruct r as [|c r]; [reflexivity|]. cbn [lazy]. now rewrite (H c r eq_refl).
    - destruct IH as [l E]. cbn [lazy]. rewrite C, E, map_app. cbn [map fst snd]. eexists (_ :: _). reflexivity. }
  destruct X as [l ->]. rewrite rev_app_distr. now exists (rev l).
Qed.
Lemma greedy_in : forall class s p r, In (p, r) (greedy class s) <-> s = p ++ r /\ Forall (fun c => class c = true) p.
Proof. intros. unfold greedy. rewrite <- in_rev. apply lazy_in. Qed.
Lemma some_in : forall l p r, In (p, r) (some l) <-> In (p, r) l /\ p <> [].
Proof. intros. unfold some. rewrite filter_In. cbn [fst]. destruct p; cbn; split; intros [H1 H2]; split; congruence. Qed.
Lemma some_app : forall l1 l2, some (l1 ++ l2) = some l1 ++ some l2.
Proof. intros. apply filter_app. Qed.
Lemma some_cons : forall p r l, p <> [] -> some ((p, r) :: l) = (p, r) :: some l.
Proof. intros p r l H. unfold some. cbn [filter fst]. now destruct p. Qed.
Lemma first_app : forall A B (f : A -> option B) l1 x l2 y, (forall z, In z l1 -> f z = None) -> f x = Some y -> first f (l1 ++ x :: l2) = Some y.
Proof.
  induction l1 as [|z l1 IH]; intros x l2 y N E; cbn [app first]; [now rewrite E|].
  rewrite (N z (or_introl eq_refl)). apply IH; [|exact E]. intros w I1. apply N. now right.
Qed.
Lemma first_none : forall A B (f : A -> option B) l, first f l = None <-> forall x, In x l -> f x = None.
Proof.
  induction l as [|x l IH]; cbn [first]; [split; [intros _ ? []|reflexivity]|]. split.
  - intros H y [<-|I1]; destruct (f x); [discriminate|reflexivity|discriminate|]. now apply IH.
  - intros H. rewrite (H x (or_introl eq_refl)). apply IH. intros y I1. apply H. now right.
Qed.
Lemma first_some : forall A B (f : A -> option B) l y, first f l = Some y -> exists x, In x l /\ f x = Some y.
Proof.
  induction l as [|x l IH]; intros y H; cbn [first] in H; [discriminate|]. destruct (f x) eqn:E.
  - injection H as <-. exists x. split; [now left|exact E].
  - destruct (IH _ H) as (z & I1 & Z). exists z. split; [now right|exact Z].
Qed.
Lemma literal_iff : forall t s r, literal t s = Some r <-> s = t ++ r.
Proof.
  induction t as [|x t IH]; intros s r; cbn [literal app]; [split; congruence|].
  destruct s as [|y s]; [split; discriminate|]. destruct (N.eqb_spec x y) as [->|N].
  - rewrite IH. split; congruence.
  - split; [discriminate|congruence].
Qed.
Lemma at_end_iff : forall s, at_end s = true <-> eol s.
Proof.
  intros [|c [|d s]]; cbn [at_end]; unfold eol; split; try tauto; try discriminate; try (intros [?|?]; discriminate).
  - intros E. apply N.eqb_eq in E as ->. now right.
  - intros [E|E]; [discriminate|]. injection E as ->. reflexivity.
Qed.
Lemma dot_iff : forall s, Forall (fun c => dot c = true) s <-> in_line s.
Proof.
  intros s. unfold in_line, dot. rewrite Forall_forall. split.
  - intros H I1. apply H in I1. now rewrite N.eqb_refl in I1.
  - intros H c I1. destruct (N.eqb_spec c NEWLINE) as [->|]; [contradiction|reflexivity].
Qed.
Lemma white_iff : forall c, white c = true <-> c = 32 \/ 9 <= c <= 13.
Proof. intros c. unfold white. lia. Qed.
Lemma blank_iff : forall s, blank s <-> s <> [] /\ Forall (fun c => white c = true) s.
Proof.
  intros s. unfold blank. split; intros [N F]; (split; [exact N|]); (eapply Forall_impl; [|exact F]); intros c; apply white_iff.
Qed.
Lemma number_iff : forall s, number s <-> s <> [] /\ Forall (fun c => is_digit c = true) s.
Proof.
  intros s. unfold number. split; intros [N F]; (split; [exact N|]); (eapply Forall_impl; [|exact F]); intros c; unfold is_digit, digit; lia.
Qed.
Lemma tail_unique : forall (a b : list N) x y nl nl', a ++ x :: 93 :: nl = b ++ y :: 93 :: nl' -> eol nl -> eol nl' -> a = b /\ x = y /\ nl = nl'.
Proof.
  intros a b x y nl nl' E [->| ->] [->| ->].
  - change (a ++ [x; 93]) with (a ++ ([x] ++ [93])) in E. change (b ++ [y; 93]) with (b ++ ([y] ++ [93])) in E.
    rewrite !app_assoc in E. apply app_inj_tail in E as [E _]. apply app_inj_tail in E as [-> ->]. auto.
  - exfalso. change (a ++ [x; 93]) with (a ++ ([x] ++ [93])) in E. change (b ++ [y; 93; NEWLINE]) with (b ++ ([y; 93] ++ [NEWLINE])) in E.
    rewrite !app_assoc in E. apply app_inj_tail in E as [_ E]. discriminate.
  - exfalso. change (b ++ [y; 93]) with (b ++ ([y] ++ [93])) in E. change (a ++ [x; 93; NEWLINE]) with (a ++ ([x; 93] ++ [NEWLINE])) in E.
    rewrite !app_assoc in E. apply app_inj_tail in E as [_ E]. discriminate.
  - change (a ++ [x; 93; NEWLINE]) with (a ++ ([x] ++ [93] ++ [NEWLINE])) in E. change (b ++ [y; 93; NEWLINE]) with (b ++ ([y] ++ [93] ++ [NEWLINE])) in E.
    rewrite !app_assoc in E. apply app_inj_tail in E as [E _]. apply app_inj_tail in E as [E _]. apply app_inj_tail in E as [-> ->]. auto.
Qed.
Lemma route_end_iff : forall s, route_end s = true <-> exists x nl, s = x :: 93 :: nl /\ x <> NEWLINE /\ eol nl.
Proof.
  intros s. split.
  - destruct s as [|c [|x s]]; cbn [route_end]; try discriminate. intros H. apply andb_true_iff in H as [H E].
    apply andb_true_iff in H as [D X]. apply N.eqb_eq in X as ->. apply at_end_iff in E. exists c, s. split; [reflexivity|].
    split; [|exact E]. unfold dot in D. lia.
  - intros (x & nl & -> & N & E). cbn [route_end]. apply at_end_iff in E. rewrite E. unfold dot. replace (x =? NEWLINE) with false by lia. reflexivity.
Qed.
Lemma route_end_long : forall q x nl, q <> [] -> eol nl -> route_end (q ++ x :: 93 :: nl) = false.
Proof.
  intros q x nl Q E. destruct (route_end (q ++ x :: 93 :: nl)) eqn:R; [|reflexivity].
  apply route_end_iff in R as (y & nl' & R & _ & E'). destruct (tail_unique q [] x y nl nl' R E E') as [H _]. contradiction.
Qed.
Lemma route_as_number : forall a x nl, in_line a -> x <> NEWLINE -> eol nl -> route_as (txt "AS" ++ a ++ x :: 93 :: nl) = Some (Some a).
Proof.
  intros a x nl A X E. unfold route_as. rewrite (proj2 (literal_iff _ _ _) eq_refl).
  destruct (lazy_at dot a (x :: 93 :: nl) (proj2 (dot_iff a) A)) as (l1 & l2 & L & H). rewrite L.
  rewrite (first_app _ _ _ l1 (a, x :: 93 :: nl) l2 (Some a)); [reflexivity| |].
  - intros [p r] I1. destruct (H _ _ I1) as (q & Q & _ & ->). cbn [snd]. now rewrite route_end_long.
  - cbn [snd fst]. replace (route_end (x :: 93 :: nl)) with true; [reflexivity|]. symmetry. apply route_end_iff. exists x, nl. auto.
Qed.
Lemma route_as_none : forall x nl, x <> NEWLINE -> eol nl -> route_as (x :: 93 :: nl) = Some None.
Proof.
  intros x nl X E. unfold route_as. destruct (literal (txt "AS") (x :: 93 :: nl)) eqn:L; [apply literal_iff in L; discriminate|].
  replace (route_end (x :: 93 :: nl)) with true; [reflexivity|]. symmetry. apply route_end_iff. exists x, nl. auto.
Qed.
Lemma route_details : forall m b x nl a, details m -> eol nl -> route_as (b ++ x :: 93 :: nl) = Some a ->
  first (fun x => match literal [91] (snd x) with Some s' => route_as s' | None => None end) (some (lazy dot (m ++ 91 :: b ++ x :: 93 :: nl))) = Some a.
Proof.
  intros m b x nl a (M1 & (c & m' & Mc & C) & M2) E R.
  destruct (lazy_at dot m (91 :: b ++ x :: 93 :: nl) (proj2 (dot_iff m) M1)) as (l1 & l2 & L & H). rewrite L.
  unfold some. rewrite filter_app. cbn [filter fst].
  replace (negb (length m =? 0)%nat) with true by (rewrite Mc; reflexivity).
  apply first_app.
  - intros [p r] I1. apply filter_In in I1 as [I1 _]. destruct (H _ _ I1) as (q & Q & -> & ->). cbn [snd].
    destruct (literal [91] (q ++ 91 :: b ++ x :: 93 :: nl)) as [s'|] eqn:Li; [|reflexivity].
    apply literal_iff in Li. destruct q as [|c1 q]; [contradiction|]. cbn [app] in Li. injection Li as -> Li. subst s'.
    unfold route_as.
    replace (literal (txt "AS") (q ++ 91 :: b ++ x :: 93 :: nl)) with (@None (list N)).
    + replace (q ++ 91 :: b ++ x :: 93 :: nl) with ((q ++ 91 :: b) ++ x :: 93 :: nl) by (rewrite <- app_assoc; reflexivity).
      rewrite route_end_long; [reflexivity| |exact E]. destruct q; discriminate.
    + symmetry. destruct (literal (txt "AS") (q ++ 91 :: b ++ x :: 93 :: nl)) as [s'|] eqn:Li; [|reflexivity]. exfalso.
      apply literal_iff in Li. destruct q as [|q1 q]; [discriminate|]. destruct q as [|q2 q]; [discriminate|].
      cbn [app txt] in Li. injection Li as -> -> _. apply (M2 p q). reflexivity.
  - cbn [snd]. rewrite (proj2 (literal_iff [91] (91 :: b ++ x :: 93 :: nl) (b ++ x :: 93 :: nl)) eq_refl). exact R.
Qed.
Lemma first_ext : forall A B (f g : A -> option B) l, (forall x, f x = g x) -> first f l = first g l.
Proof. intros A B f g l H. induction l as [|x l IH]; cbn [first]; [reflexivity|]. now rewrite H, IH. Qed.
Lemma first_map : forall A B C (g : B -> C) (f : A -> option B) l, first (fun x => option_map g (f x)) l = option_map g (first f l).
Proof. intros. induction l as [|x l IH]; cbn [first]; [reflexivity|]. destruct (f x); cbn [option_map]; [reflexivity|exact IH]. Qed.
Lemma route_full : forall w n ws m b x nl a, blank [w] -> word n -> blank ws -> details m -> eol nl ->
  route_as (b ++ x :: 93 :: nl) = Some a ->
  route (w :: n ++ ws ++ m ++ 91 :: b ++ x :: 93 :: nl) = Some (n, a).
Proof.
  intros w n ws m b x nl a W Wn Ws M E R. pose proof (route_details m b x nl a M E R) as D.
  set (rest := m ++ 91 :: b ++ x :: 93 :: nl) in *.
  cbn [route]. apply blank_iff in W as [_ W]. apply Forall_cons_iff in W as [W _]. rewrite W.
  destruct Wn as [N1 N2]. apply blank_iff in Ws as [Ws1 Ws2].
  assert (Nd : Forall (fun c => dot c = true) n).
  { eapply Forall_impl; [|exact N2]. intros c C. cbv beta in C. unfold dot. change NEWLINE with 10. lia. }
  destruct (lazy_at dot n (ws ++ rest) Nd) as (l1 & l2 & L & H). rewrite L.
  rewrite some_app, (some_cons n) by exact N1. apply first_app.
  - intros [p r] I1. apply some_in in I1 as [I1 _]. destruct (H _ _ I1) as (q & Q & -> & ->). cbn [snd].
    apply first_none. intros [p2 r2] I2. apply some_in in I2 as [I2 P2]. apply greedy_in in I2 as [E2 F2].
    destruct q as [|c q]; [contradiction|]. destruct p2 as [|c2 p2]; [contradiction|]. cbn [app] in E2. injection E2 as -> _.
    apply Forall_cons_iff in F2 as [F2 _]. apply white_iff in F2. apply Forall_app in N2 as [_ N2]. apply Forall_cons_iff in N2 as [N2 _]. contradiction.
  - cbn [snd fst]. destruct (greedy_at white ws rest Ws2) as [l G].
    { intros c r' Er. destruct M as (_ & (c0 & m' & -> & C) & _). unfold rest in Er. cbn [app] in Er. injection Er as <- _.
      destruct (white c0) eqn:Wc; [|reflexivity]. apply white_iff in Wc. contradiction. }
    rewrite G, (some_cons ws) by exact Ws1.
    cbn [first snd].
    rewrite (first_ext _ _ _ (fun x => option_map (fun a => (n, a)) (match literal [91] (snd x) with Some s' => route_as s' | None => None end)))
      by (intros [? s]; cbn [snd]; now destruct (literal [91] s)).
    rewrite first_map, D. reflexivity.
Qed.
Lemma route_matches : forall l n a, route l = Some (n, a) ->
  (exists w l', l = w :: l' /\ blank [w]) /\ exists l' nl, eol nl /\ l = l' ++ 93 :: nl.
Proof.
  intros [|w l] n a H; cbn [route] in H; [discriminate|]. destruct (white w) eqn:W; [|discriminate]. split.
  - exists w, l. split; [reflexivity|]. apply blank_iff. split; [discriminate|]. now constructor.
  - apply first_some in H as ([p1 r1] & I1 & H). apply first_some in H as ([p2 r2] & I2 & H). apply first_some in H as ([p3 r3] & I3 & H).
    apply some_in in I1 as [I1 _]. apply lazy_in in I1 as [-> _]. cbn [snd fst] in *.
    apply some_in in I2 as [I2 _]. apply greedy_in in I2 as [-> _]. cbn [snd] in *.
    apply some_in in I3 as [I3 _]. apply lazy_in in I3 as [-> _]. cbn [snd] in *.
    destruct (literal [91] r3) as [s|] eqn:L; [|discriminate]. apply literal_iff in L as ->.
    destruct (route_as s) as [b|] eqn:R; [|discriminate]. clear H.
    assert (X : exists u x nl, s = u ++ x :: 93 :: nl /\ eol nl).
    { unfold route_as in R. destruct (literal (txt "AS") s) as [s'|] eqn:L.
      - destruct (first _ (lazy dot s')) as [b'|] eqn:Fi.
        + apply first_some in Fi as ([p r] & I4 & F4). cbn [snd fst] in F4. destruct (route_end r) eqn:Re; [|discriminate].
          apply route_end_iff in Re as (x & nl & -> & _ & E). apply lazy_in in I4 as [-> _]. apply literal_iff in L as ->.
          exists (txt "AS" ++ p), x, nl. split; [now rewrite <- app_assoc|exact E].
        + destruct (route_end s) eqn:Re; [|discriminate]. apply route_end_iff in Re as (x & nl & -> & _ & E). now exists [], x, nl.
      - destruct (route_end s) eqn:Re; [|discriminate]. apply route_end_iff in Re as (x & nl & -> & _ & E). now exists [], x, nl. }
    destruct X as (u & x & nl & -> & E). exists (w :: p1 ++ p2 ++ p3 ++ [91] ++ u ++ [x]), nl. split; [exact E|].
    cbn [app]. f_equal. rewrite <- !app_assoc. cbn [app]. rewrite <- !app_assoc. reflexivity.
Qed.
Lemma route_tells : forall l x, tells l x -> route l = x.
Proof.
  intros l x [w n ws m a c nl E W Wn Ws M A C Nl|w n ws m c nl E W Wn Ws M C Nl|O].
  - subst l. change (txt "[AS" ++ a ++ [c; 93] ++ nl) with (91 :: (txt "AS" ++ a ++ c :: 93 :: nl)).
    rewrite (app_assoc (txt "AS") a). apply route_full; auto. rewrite <- app_assoc. now apply route_as_number.
  - subst l. change ([91; c; 93] ++ nl) with (91 :: [] ++ c :: 93 :: nl). apply route_full; auto. now apply route_as_none.
  - destruct (route l) as [[n a]|] eqn:R; [|reflexivity]. exfalso. apply route_matches in R as [(w & l' & -> & B) (l2 & nl & E & X)].
    destruct O as [O|O]; [exact (O w l' eq_refl B)|exact (O l2 nl E X)].
Qed.

(** ** Paths *)
Lemma run_unique : forall (P : N -> Prop) s s' X Y c c', X ++ c :: s = Y ++ c' :: s' -> Forall P s -> Forall P s' -> ~ P c -> ~ P c' ->
  X = Y /\ c = c' /\ s = s'.
Proof.
  intros P. induction s as [|x s IH] using rev_ind; intros s' X Y c c' E F F' C C'.
  - destruct s' as [|y s' _] using rev_ind; [apply app_inj_tail in E as [-> ->]; auto|].
    exfalso. change (c' :: s' ++ [y]) with ((c' :: s') ++ [y]) in E. rewrite app_assoc in E. apply app_inj_tail in E as [_ ->].
    apply Forall_app in F' as [_ F']. apply Forall_cons_iff in F' as [F' _]. contradiction.
  - change (c :: s ++ [x]) with ((c :: s) ++ [x]) in E. rewrite app_assoc in E.
    destruct s' as [|y s' _] using rev_ind.
    + exfalso. apply app_inj_tail in E as [_ ->]. apply Forall_app in F as [_ F]. apply Forall_cons_iff in F as [F _]. contradiction.
    + change (c' :: s' ++ [y]) with ((c' :: s') ++ [y]) in E. rewrite app_assoc in E. apply app_inj_tail in E as [E ->].
      apply Forall_app in F as [F _]. apply Forall_app in F' as [F' _]. destruct (IH _ _ _ _ _ E F F' C C') as (-> & -> & ->). auto.
Qed.
Lemma brace_unique : forall (X Y : list N) nl nl', X ++ txt "}" ++ nl = Y ++ txt "}" ++ nl' -> eol nl -> eol nl' -> X = Y.
Proof.
  intros X Y nl nl' E [->| ->] [->| ->].
  - now apply app_inj_tail in E as [-> _].
  - exfalso. change (Y ++ txt "}" ++ [NEWLINE]) with (Y ++ ([125] ++ [NEWLINE])) in E. rewrite (app_assoc Y) in E. apply app_inj_tail in E as [_ E]. discriminate.
  - exfalso. change (X ++ txt "}" ++ [NEWLINE]) with (X ++ ([125] ++ [NEWLINE])) in E. rewrite (app_assoc X) in E. apply app_inj_tail in E as [_ E]. discriminate.
  - rewrite !app_assoc in E. apply app_inj_tail in E as [E _]. now apply app_inj_tail in E as [-> _].
Qed.
Lemma not_digit : forall c, c = 32 \/ c = 123 -> ~ digit c.
Proof. intros c [->| ->]; unfold digit; lia. Qed.
Lemma path_form : forall (ws p a s nl : list N), ws ++ txt "BGP.as_path:" ++ p ++ [32] ++ a ++ txt " {" ++ s ++ txt "}" ++ nl =
  ((((ws ++ txt "BGP.as_path:" ++ p) ++ 32 :: a) ++ [32]) ++ 123 :: s) ++ txt "}" ++ nl.
Proof. intros. repeat (rewrite <- app_assoc; cbn [app]). reflexivity. Qed.
Lemma path_unique : forall l a b, path l a -> path l b -> a = b.
Proof.
  intros l a b (ws & p & s & nl & -> & _ & _ & [_ A] & [_ D] & E) (ws' & p' & s' & nl' & L & _ & _ & [_ A'] & [_ D'] & E').
  rewrite !path_form in L. apply brace_unique in L; auto.
  apply (run_unique digit) in L as (L & _ & _); auto using not_digit.
  apply app_inj_tail in L as [L _]. apply (run_unique digit) in L as (_ & _ & L); auto using not_digit.
Qed.
Lemma path_sound : forall l a, as_path l = Some a -> path l a.
Proof.
  intros l a H. unfold as_path in H. apply first_some in H as ([ws r1] & I1 & H). cbn [snd] in H.
  apply some_in in I1 as [I1 W]. apply greedy_in in I1 as [-> F1].
  destruct (literal (txt "BGP.as_path:") r1) as [r2|] eqn:L; [|discriminate]. apply literal_iff in L as ->.
  apply first_some in H as ([p r3] & I2 & H). cbn [snd] in H. apply greedy_in in I2 as [-> F2].
  destruct (literal [32] r3) as [r4|] eqn:L; [|discriminate]. apply literal_iff in L as ->.
  apply first_some in H as ([d r5] & I3 & H). cbn [snd fst] in H. apply some_in in I3 as [I3 D]. apply greedy_in in I3 as [-> F3].
  destruct (literal (txt " {") r5) as [r6|] eqn:L; [|discriminate]. apply literal_iff in L as ->.
  apply first_some in H as ([s r7] & I4 & H). cbn [snd fst] in H. apply some_in in I4 as [I4 S1]. apply greedy_in in I4 as [-> F4].
  destruct (literal (txt "}") r7) as [nl|] eqn:L; [|discriminate]. apply literal_iff in L as ->.
  destruct (at_end nl) eqn:E; [|discriminate]. injection H as <-. apply at_end_iff in E.
  exists ws, p, s, nl. split; [reflexivity|]. split; [now apply blank_iff|]. split; [now apply dot_iff|].
  split; [now apply number_iff|]. split; [now apply number_iff|exact E].
Qed.
Lemma first_found : forall A B (f : A -> option B) l x, In x l -> f x <> None -> first f l <> None.
Proof. intros A B f l x I1 H N. rewrite first_none in N. auto. Qed.
Lemma path_complete : forall l a, path l a -> as_path l <> None.
Proof.
  intros l a (ws & p & s & nl & -> & W & P & A & D & E). apply blank_iff in W as [W1 W2]. apply dot_iff in P.
  apply number_iff in A as [A1 A2]. apply number_iff in D as [D1 D2]. apply at_end_iff in E. unfold as_path.
  eapply (first_found _ _ _ _ (ws, _)); [apply some_in; split; [apply greedy_in; split; [reflexivity|exact W2]|exact W1]|]. cbn [snd].
  rewrite (proj2 (literal_iff _ _ _) eq_refl).
  eapply (first_found _ _ _ _ (p, _)); [apply greedy_in; split; [reflexivity|exact P]|]. cbn [snd].
  rewrite (proj2 (literal_iff [32] _ _) eq_refl).
  eapply (first_found _ _ _ _ (a, _)); [apply some_in; split; [apply greedy_in; split; [reflexivity|exact A2]|exact A1]|]. cbn [snd].
  rewrite (proj2 (literal_iff (txt " {") _ _) eq_refl).
  eapply (first_found _ _ _ _ (s, _)); [apply some_in; split; [apply greedy_in; split; [reflexivity|exact D2]|exact D1]|]. cbn [snd].
  rewrite (proj2 (literal_iff (txt "}") _ _) eq_refl), E. discriminate.
Qed.
Lemma path_iff : forall l a, as_path l = Some a <-> path l a.
Proof.
  intros l a. split; [apply path_sound|]. intros H. destruct (as_path l) as [b|] eqn:E; [|now apply path_complete in H].
  f_equal. exact (path_unique _ _ _ (path_sound _ _ E) H).
Qed.
Lemma origin_first : forall lines x, origin lines x -> first as_path lines = x.
Proof.
  intros lines [a|] H; cbn [origin] in H.
  - destruct H as (l1 & l & l2 & -> & P & N). apply first_app; [|now apply path_iff].
    intros z I1. destruct (as_path z) as [b|] eqn:E; [|reflexivity]. apply path_iff in E. now apply (N z b) in I1.
  - apply first_none. intros z I1. destruct (as_path z) as [b|] eqn:E; [|reflexivity]. apply path_iff in E. now apply (H z b) in I1.
Qed.

(** ** The table *)
Section Table.
  Variable now : Z.
  Lemma upsert_nets : forall n a t m, In m (map an_net (upsert now n a t)) <-> m = n \/ In m (map an_net t).
  Proof.
    intros n a t m. induction t as [|r t IH]; cbn [upsert map]; [cbn; intuition congruence|].
    destruct (pnet_eqb (an_net r) n) eqn:E; cbn [map].
    - apply pnet_eqb_eq in E. cbn [In an_net]. rewrite E. intuition congruence.
    - cbn [In]. rewrite IH. intuition congruence.
  Qed.
  Lemma upsert_nodup : forall n a t, NoDup (map an_net t) -> NoDup (map an_net (upsert now n a t)).
  Proof.
    intros n a t. induction t as [|r t IH]; intros D; cbn [upsert map]; [constructor; [intros []|constructor]|].
    apply NoDup_cons_iff in D as [D1 D2]. destruct (pnet_eqb (an_net r) n) eqn:E; cbn [map].
    - apply pnet_eqb_eq in E. constructor; [cbn [an_net]; now rewrite <- E|exact D2].
    - constructor; [|auto]. rewrite upsert_nets. intros [X|X]; [|contradiction].
      assert (pnet_eqb (an_net r) n = true) by (now apply pnet_eqb_eq). congruence.
  Qed.
  Lemma upsert_in : forall n a t r, NoDup (map an_net t) -> (In r (upsert now n a t) <-> r = mkA n a now \/ (In r t /\ an_net r <> n)).
  Proof.
    intros n a t r. induction t as [|q t IH]; intros D; cbn [upsert]; [cbn; intuition congruence|].
    cbn [map] in D. apply NoDup_cons_iff in D as [D1 D2]. destruct (pnet_eqb (an_net q) n) eqn:E.
    - apply pnet_eqb_eq in E. cbn [In]. split.
      + intros [<-|I1]; [now left|]. right. split; [now right|]. intros X. apply D1. rewrite E, <- X. now apply in_map.
      + intros [->|[[->|I1] X]]; [now left|contradiction|now right].
    - assert (X : an_net q <> n) by (intros X; assert (pnet_eqb (an_net q) n = true) by (now apply pnet_eqb_eq); congruence).
      cbn [In]. rewrite (IH D2). split.
      + intros [<-|[->|[I1 Y]]]; auto.
      + intros [->|[[->|I1] Y]]; auto.
  Qed.
  Definition upserts (cs : list (pnet * Z)) (t : list announcement) : list announcement :=
    fold_left (fun t c => upsert now (fst c) (snd c) t) cs t.
  Lemma upserts_nodup : forall cs t, NoDup (map an_net t) -> NoDup (map an_net (upserts cs t)).
  Proof. induction cs as [|c cs IH]; intros t D; [exact D|]. apply IH. now apply upsert_nodup. Qed.
  Lemma newest_cons : forall c cs n a, newest (c :: cs) n a <-> newest cs n a \/ (c = (n, a) /\ ~ In n (map fst cs)).
  Proof.
    intros c cs n a. split.
    - intros ([|x l1] & l2 & E & N); cbn [app] in E; injection E as -> ->; [now right|]. left. now exists l1, l2.
    - intros [(l1 & l2 & -> & N)|[-> N]]; [now exists (c :: l1), l2|now exists [], cs].
  Qed.
  Lemma newest_in : forall cs n a, newest cs n a -> In n (map fst cs).
  Proof. intros cs n a (l1 & l2 & -> & _). rewrite map_app. apply in_or_app. right. now left. Qed.
  Lemma pnet_dec : forall a b : pnet, a = b \/ a <> b.
  Proof. intros a b. destruct (pnet_eqb a b) eqn:E; [left; now apply pnet_eqb_eq|right; intros X; apply pnet_eqb_eq in X; congruence]. Qed.
  Lemma upserts_in : forall cs t r, NoDup (map an_net t) -> (In r (upserts cs t) <-> changed now t cs r).
  Proof.
    induction cs as [|[n a] cs IH]; intros t r D.
    - unfold upserts, changed. cbn [fold_left map fst]. split; [intros I1; right; split; [exact I1|intros []]|].
      intros [[(l1 & l2 & E & _) _]|[I1 _]]; [destruct l1; discriminate|exact I1].
    - change (upserts ((n, a) :: cs) t) with (upserts cs (upsert now n a t)).
      rewrite IH by now apply upsert_nodup. unfold changed. rewrite newest_cons, (upsert_in n a t r D). cbn [map fst In]. split.
      + intros [[N T]|[[->|[I1 X]] N]]; [now left; split; [left|]| |right; split; [exact I1|intros [Y|Y]; [congruence|contradiction]]].
        left. cbn [an_net an_as an_seen] in *. split; [right; now split|reflexivity].
      + intros [[[N|[E N]] T]|[I1 N]].
        * now left.
        * right. split; [left|exact N]. destruct r as [rn ra rs]. cbn [an_net an_as an_seen] in *. congruence.
        * right. split; [right; split; [exact I1|intros X; apply N; left; congruence]|intros X; apply N; now right].
  Qed.
End Table.

Section Update.
  Variable decode : list N -> option cstr.
  Variable inet : cstr -> option pnet.
  Variable bigint : cstr -> option Z.
  Variable now : Z.
  Variable bird : cstr -> list (list N).
  Notation readings := (Forall2 (fun l x => reads decode inet bigint l (fst x) (snd x))).
  Lemma routes_read : forall lines cs aggs, length cs = length aggs -> readings lines (combine cs aggs) ->
    forall t old, routes decode inet bigint now lines t old = Some (upserts now (concat cs) t, old ++ concat aggs).
  Proof.
    induction lines as [|l lines IH]; intros cs aggs Len R t old.
    - inversion R as [E|]. destruct cs as [|c cs], aggs as [|g aggs]; try discriminate. cbn. now rewrite app_nil_r.
    - destruct cs as [|c cs], aggs as [|g aggs]; try discriminate; [inversion R|]. cbn [combine] in R.
      inversion R as [|? ? ? ? R1 R2]; subst. clear R. cbn [fst snd] in R1. injection Len as Len. specialize (IH cs aggs Len R2).
      cbn [routes concat]. destruct R1 as [n a n' a' net asn T A Dn Da Hn Ha|n a n' T A Dn|T Dl].
      + rewrite (route_tells _ _ T), Dn. destruct a as [|x a]; [contradiction|]. rewrite Da. unfold announce. rewrite Hn, Ha.
        rewrite IH. reflexivity.
      + rewrite (route_tells _ _ T), Dn. destruct A as [->| ->]; rewrite IH; cbn [app]; rewrite <- app_assoc; reflexivity.
      + rewrite (route_tells _ _ T). cbn [app]. destruct (decode l); [|contradiction].
        destruct (literal (txt "Table") l), l; apply IH.
  Qed.
  Lemma aggregates_read : forall ns more, Forall2 (looks_up inet bigint bird) ns more ->
    forall t, aggregates inet bigint now bird ns t = Some (upserts now (concat more) t).
  Proof.
    intros ns more F. induction F as [|n m ns more [a net asn O Hn Ha|O] F IH]; intros t; cbn [aggregates concat]; [reflexivity| |].
    - rewrite (origin_first _ _ O). unfold announce. rewrite Hn, Ha, IH. reflexivity.
    - rewrite (origin_first _ _ O), IH. reflexivity.
  Qed.
  Lemma bird_read : forall changes t, all_changes decode inet bigint bird changes ->
    from_bird decode inet bigint now bird t = Some (upserts now changes t).
  Proof.
    intros changes t (cs & aggs & more & R & Len & L & ->). unfold from_bird. rewrite (routes_read _ _ _ Len R). cbn [app].
    rewrite (aggregates_read _ _ L). f_equal. unfold upserts. now rewrite fold_left_app.
  Qed.
End Update.
Lemma updated : forall decode inet bigint now bird server changes t,
  NoDup (map an_net t) -> (forall r, In r t -> net_wf (an_net r)) -> (forall s n, inet s = Some n -> net_wf n) ->
  starts_with 47 server = true -> all_changes decode inet bigint bird changes ->
  exists t', update_announcements decode inet bigint now bird server t = Some t' /\ NoDup (map an_net t') /\
    forall r, In r t' <-> changed now t changes r /\ kept now r.
Proof.
  intros decode inet bigint now bird server changes t D W Wi Sv A. unfold update_announcements. rewrite Sv, (bird_read _ _ _ now _ _ t A).
  cbn [option_map]. eexists. split; [reflexivity|].
  assert (Wr : forall r, In r (upserts now changes t) -> net_wf (an_net r)).
  { intros r I1. apply upserts_in in I1; [|exact D]. destruct I1 as [[N _]|[I1 _]]; [|auto].
    apply newest_in in N. destruct A as (cs & aggs & more & R & Len & L & ->). rewrite map_app in N. apply in_app_or in N as [N|N].
    - apply in_map_iff in N as ([n a] & E & N). cbn [fst] in E. subst n. apply in_concat in N as (c & I1 & I2).
      assert (X : forall lines cs aggs, length cs = length aggs -> Forall2 (fun l x => reads decode inet bigint l (fst x) (snd x)) lines (combine cs aggs) ->
        In c cs -> net_wf (an_net r)).
      { clear - I2 Wi. intros lines cs. revert lines. induction cs as [|c0 cs IH]; intros lines [|g aggs] Len R I1; try discriminate; [destruct I1|].
        cbn [combine] in R. inversion R as [|l x ls xs R1 R2]; subst. destruct I1 as [->|I1]; [|injection Len as Len; eauto].
        cbn [fst snd] in R1. destruct R1 as [n0 a0 n' a' net asn T A0 Dn Da Hn Ha|n0 a0 n' T A0 Dn|T Dl]; try destruct I2 as [E|[]]; [|destruct I2|destruct I2].
        injection E as <- _. eauto. }
      exact (X _ _ _ Len R I1).
    - apply in_map_iff in N as ([n a] & E & N). cbn [fst] in E. subst n. apply in_concat in N as (c & I1 & I2).
      clear - I1 I2 L Wi. induction L as [|n m ns more U F IH]; [destruct I1|]. destruct I1 as [->|I1]; [|auto].
      destruct U as [a0 net asn O Hn Ha|O]; [destruct I2 as [E|[]]|destruct I2]. injection E as <- _. eauto. }
  split.
  - assert (X : NoDup (map an_net (upserts now changes t))) by now apply upserts_nodup. revert X.
    unfold purge. generalize (deletes now) (upserts now changes t). clear.
    induction l as [|d ds IH]; intros t X; cbn [fold_left]; [exact X|]. apply IH. clear IH. induction t as [|r t IH]; cbn [filter map] in *; [constructor|].
    apply NoDup_cons_iff in X as [X1 X2]. destruct (negb (d r)); [|auto]. cbn [map]. constructor; [|auto].
    intros I1. apply X1. apply in_map_iff in I1 as (q & <- & I1). apply filter_In in I1 as [I1 _]. now apply in_map.
  - intros r. split.
    + intros I1. assert (I2 : In r (upserts now changes t)) by (apply purge_in in I1; tauto).
      apply purge_kept in I1 as [_ K]; [|auto]. split; [|exact K]. now apply upserts_in in I2.
    + intros [C K]. apply upserts_in in C; [|exact D]. apply purge_kept; [auto|]. now split.
Qed.

(** ** Checks, for examples *)
Fixpoint has_as (m : list N) : bool :=
  match literal (txt "[AS") m with Some _ => true | None => match m with _ :: m' => has_as m' | [] => false end end.
Lemma has_as_no : forall m, has_as m = false -> forall x y, m <> x ++ txt "[AS" ++ y.
Proof.
  intros m H x y ->. induction x as [|c x IH]; [discriminate|]. apply IH. cbn [app has_as] in H.
  destruct (literal (txt "[AS") (c :: x ++ txt "[AS" ++ y)); [discriminate|exact H].
Qed.
Definition detailsb (m : list N) : bool :=
  forallb dot m && negb (has_as m) && match m with c :: _ => negb (white c) | [] => false end.
Lemma details_check : forall m, detailsb m = true -> details m.
Proof.
  intros m H. unfold detailsb in H. apply andb_true_iff in H as [H C]. apply andb_true_iff in H as [D A].
  split; [apply dot_iff, Forall_forall, forallb_forall, D|]. split; [|now apply has_as_no, negb_true_iff].
  destruct m as [|c m]; [discriminate|]. exists c, m. split; [reflexivity|]. rewrite <- white_iff. now destruct (white c).
Qed.
Definition wordb (s : list N) : bool := match s with [] => false | _ => forallb (fun c => negb (white c)) s end.
Lemma word_check : forall s, wordb s = true -> word s.
Proof.
  intros s H. destruct s as [|c s]; [discriminate|]. split; [discriminate|]. unfold wordb in H.
  apply Forall_forall. intros x I1. rewrite forallb_forall in H. apply H in I1. rewrite <- white_iff. now destruct (white x).
Qed.
Definition blankb (s : list N) : bool := match s with [] => false | _ => forallb white s end.
Lemma blank_check : forall s, blankb s = true -> blank s.
Proof.
  intros s H. apply blank_iff. destruct s as [|c s]; [discriminate|]. split; [discriminate|]. unfold blankb in H.
  apply Forall_forall. now apply forallb_forall.
Qed.
Lemma in_line_check : forall s, forallb dot s = true -> in_line s.
Proof. intros s H. apply dot_iff, Forall_forall, forallb_forall, H. Qed.
