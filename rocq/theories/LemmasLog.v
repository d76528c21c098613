(** Lemmas for C83 *)
From Coq Require Import String.
From Coq Require Import NArith ZArith List Bool Arith Lia ZifyBool ZifyNat ZifyN.
From Verif Require Import Base ModelCountryCode ModelStringPool ModelText SpecText LemmasTextAddr ModelLog SpecLog.
Import ListNotations.
Open Scope N_scope.

(** ** Levels *)
Lemma blank_space c : blank c <-> is_space c = true.
Proof. unfold blank, is_space. lia. Qed.
Lemma skip_blank b r : Forall blank b -> skip_space (b ++ r) = skip_space r.
Proof. induction 1 as [|c b B _ IH]; auto. cbn [app skip_space]. apply blank_space in B. now rewrite B. Qed.
Lemma digit_48 d : d < 10 -> is_digit (48 + d) = true.
Proof. unfold is_digit. lia. Qed.
Lemma ends_digit r : ends r -> match r with c :: _ => is_digit c = false | [] => True end.
Proof. intros [-> | (c & r' & -> & B)]; [exact Logic.I|]. unfold blank in B. unfold is_digit. lia. Qed.
Lemma ends_true r : ends r -> match r with c :: _ => is_space c | [] => true end = true.
Proof. intros [-> | (c & r' & -> & B)]; auto. now apply blank_space. Qed.
Lemma skip_digits_all ds r : Forall (fun d => d < 10) ds -> ends r -> skip_digits (map (fun d => 48 + d) ds ++ r) = r.
Proof.
  intros F E. induction F as [|d ds D _ IH].
  - apply ends_digit in E. destruct r as [|c r]; auto. cbn [map app skip_digits]. now rewrite E.
  - cbn [map app skip_digits]. now rewrite digit_48 by auto.
Qed.
Lemma read_digits_more ds r : Forall (fun d => d < 10) ds -> ends r -> forall v,
  read_digits (map (fun d => 48 + d) ds ++ r) v = fold_left (fun v d => v * 10 + d) ds v.
Proof.
  intros F E. induction F as [|d ds D _ IH]; intros v.
  - apply ends_digit in E. destruct r as [|c r]; auto. cbn [map app read_digits]. now rewrite E.
  - cbn [map app read_digits fold_left]. rewrite digit_48 by auto. rewrite IH. f_equal. lia.
Qed.
Lemma as_int_fits z : (- 2 ^ 31 <= z < 2 ^ 31)%Z -> as_int z = z.
Proof. intros H. unfold as_int. rewrite Z.mod_small by lia. lia. Qed.

Lemma number_end b (sg : cstr) s v r : Forall blank b -> decimal s v -> ends r -> (sg = [] \/ sg = [43] \/ sg = [45]) ->
  strtol_end (b ++ sg ++ s ++ r) = r.
Proof.
  intros B (ds & NE & F & -> & ->) E G. unfold strtol_end. rewrite skip_blank by auto.
  destruct ds as [|d ds]; [contradiction|]. inversion F as [|? ? D Fs]; subst.
  assert (X : skip_sign (skip_space (sg ++ map (fun d => 48 + d) (d :: ds) ++ r)) = map (fun d => 48 + d) (d :: ds) ++ r).
  { destruct G as [-> | [-> | ->]]; cbn [app map skip_space].
    - replace (is_space (48 + d)) with false by (unfold is_space; lia). unfold skip_sign.
      replace (48 + d =? 45) with false by lia. now replace (48 + d =? 43) with false by lia.
    - reflexivity.
    - reflexivity. }
  rewrite X. cbn [map app]. rewrite digit_48 by auto. now apply skip_digits_all.
Qed.
Lemma strtol_more b s v r : Forall blank b -> decimal s v -> ends r -> strtol (b ++ s ++ r) = Z.min (2 ^ 63 - 1) (Z.of_N v).
Proof.
  intros B (ds & NE & F & -> & ->) E. destruct ds as [|d ds]; [contradiction|]. inversion F as [|? ? D Fs]; subst.
  unfold strtol. rewrite skip_blank by auto. cbn [map app skip_space]. replace (is_space (48 + d)) with false by (unfold is_space; lia).
  replace (48 + d =? 45) with false by lia. replace (48 + d =? 43) with false by lia.
  change (48 + d :: map (fun d => 48 + d) ds ++ r) with (map (fun d => 48 + d) (d :: ds) ++ r).
  now rewrite read_digits_more by auto.
Qed.
Lemma strtol_plus b s v r : Forall blank b -> decimal s v -> ends r -> strtol (b ++ [43] ++ s ++ r) = Z.min (2 ^ 63 - 1) (Z.of_N v).
Proof.
  intros B (ds & NE & F & -> & ->) E. unfold strtol. rewrite skip_blank by auto. cbn [app skip_space]. cbv beta iota.
  change (is_space 43) with false. cbv iota. change (43 =? 45) with false. change (43 =? 43) with true. cbv iota. now rewrite read_digits_more by auto.
Qed.
Lemma strtol_minus b s v r : Forall blank b -> decimal s v -> ends r -> strtol (b ++ [45] ++ s ++ r) = Z.max (- 2 ^ 63) (- Z.of_N v).
Proof.
  intros B (ds & NE & F & -> & ->) E. unfold strtol. rewrite skip_blank by auto. cbn [app skip_space].
  change (is_space 45) with false. cbv iota. change (45 =? 45) with true. cbv iota. now rewrite read_digits_more by auto.
Qed.
Lemma begins_app t r : begins t (t ++ r) = true.
Proof. induction t as [|x t IH]; auto. cbn [app begins]. rewrite N.eqb_refl. exact IH. Qed.
Lemma begins_exists t s : begins t s = true -> exists r, s = t ++ r.
Proof.
  revert s. induction t as [|x t IH]; intros s H; [now exists s|]. destruct s as [|y s]; [discriminate|].
  cbn [begins] in H. apply andb_true_iff in H. destruct H as [X H]. apply N.eqb_eq in X. subst y.
  destruct (IH s H) as [r ->]. now exists r.
Qed.

Lemma levels s p : says_level s p -> log_priority s = p.
Proof.
  intros H. destruct H as [b s v r B D E V|b s v r B D E V|b s v r B D E V|r|r|r].
  - unfold log_priority. pose proof (number_end b [] s v r B D E (or_introl eq_refl)) as X. cbn [app] in X. rewrite X, (ends_true r E).
    rewrite (strtol_more b s v r B D E). rewrite as_int_fits; lia.
  - unfold log_priority. rewrite (number_end b [43] s v r B D E (or_intror (or_introl eq_refl))), (ends_true r E).
    rewrite (strtol_plus b s v r B D E). rewrite as_int_fits; lia.
  - unfold log_priority. rewrite (number_end b [45] s v r B D E (or_intror (or_intror eq_refl))), (ends_true r E).
    rewrite (strtol_minus b s v r B D E). rewrite as_int_fits; lia.
  - reflexivity.
  - reflexivity.
  - reflexivity.
Qed.
Lemma unknown s : no_level s -> log_priority s = 0%Z.
Proof.
  intros (b & r & -> & B & R & T). unfold log_priority.
  assert (Y : skip_space r = r). { destruct r as [|c r]; auto. cbn [skip_space]. destruct (is_space c) eqn:X; auto. apply blank_space in X. tauto. }
  assert (E : strtol_end (b ++ r) = b ++ r).
  { unfold strtol_end. rewrite skip_blank, Y by auto. destruct r as [|c r]; auto. destruct R as (R1 & R2 & R3 & R4).
    unfold skip_sign. replace (c =? 45) with false by lia. replace (c =? 43) with false by lia. cbn [orb].
    now replace (is_digit c) with false by (unfold is_digit; lia). }
  assert (Z0 : strtol (b ++ r) = 0%Z).
  { unfold strtol. rewrite skip_blank, Y by auto. destruct r as [|c r]; auto. destruct R as (R1 & R2 & R3 & R4).
    replace (c =? 45) with false by lia. replace (c =? 43) with false by lia. cbn [read_digits].
    replace (is_digit c) with false by (unfold is_digit; lia). reflexivity. }
  rewrite E, Z0. cbv zeta.
  destruct (match b ++ r with c :: _ => is_space c | [] => true end); [reflexivity|].
  destruct (begins (txt "err") (b ++ r)) eqn:X1. { apply begins_exists in X1. destruct X1 as [t X]. destruct (T t) as (A & _ & _). contradiction. }
  destruct (begins (txt "info") (b ++ r)) eqn:X2. { apply begins_exists in X2. destruct X2 as [t X]. destruct (T t) as (_ & A & _). contradiction. }
  destruct (begins (txt "debug") (b ++ r)) eqn:X3. { apply begins_exists in X3. destruct X3 as [t X]. destruct (T t) as (_ & _ & A). contradiction. }
  reflexivity.
Qed.

(** ** Messages *)
Lemma emit_passed debug c m : passed_on debug (level c) (out c) m (emit debug c m).
Proof.
  unfold passed_on, important, emit, loc_log_cond, loc_log, to, LOG_DEBUG.
  destruct (prio m =? 7)%Z eqn:E7; destruct debug; cbn [andb negb]; destruct (prio m <=? level c)%Z eqn:E; split; intros H;
    try reflexivity; try (exfalso; lia); try (destruct (out c); reflexivity); exfalso; try (apply H; split; [lia|]; intros; try reflexivity; lia);
    destruct H as [H1 H2]; try lia; discriminate H2; lia.
Qed.
Lemma steps_app debug reg h1 : forall c h2,
  steps debug reg c (h1 ++ h2) = (fst (steps debug reg (fst (steps debug reg c h1)) h2), snd (steps debug reg c h1) ++ snd (steps debug reg (fst (steps debug reg c h1)) h2)).
Proof.
  induction h1 as [|a h1 IH]; intros c h2.
  - cbn [app steps fst snd]. now destruct (steps debug reg c h2).
  - cbn [app steps]. destruct (step debug reg c a) as [c' e]. rewrite IH. destruct (steps debug reg c' h1) as [c'' e'']. cbn [fst snd].
    now rewrite app_assoc.
Qed.

(** The last value, read from the end *)
Lemma latest_fun {C A} (f : C -> option A) d h x y : latest f d h x -> latest f d h y -> x = y.
Proof.
  revert x y. induction h as [|a h IH] using rev_ind; intros x y X Y.
  - destruct X as [(h1 & a & h2 & E & _)|[_ ->]]; [now destruct h1|]. destruct Y as [(h1 & b & h2 & E & _)|[_ ->]]; [now destruct h1|]. reflexivity.
  - assert (G : forall z, latest f d (h ++ [a]) z -> f a = Some z \/ f a = None /\ latest f d h z).
    { intros z [(h1 & b & h2 & E & Fb & N)|[N ->]].
      - destruct h2 as [|u h2 _] using rev_ind.
        + apply app_inj_tail in E. destruct E as [_ ->]. now left.
        + replace (h1 ++ b :: h2 ++ [u]) with ((h1 ++ b :: h2) ++ [u]) in E by now rewrite <- app_assoc.
          apply app_inj_tail in E. destruct E as [-> ->]. apply Forall_app in N. destruct N as [N U]. inversion U; subst.
          right. split; auto. left. now exists h1, b, h2.
      - apply Forall_app in N. destruct N as [N U]. inversion U; subst. right. split; auto. now right. }
    destruct (G x X) as [Hx|[Hx X']]; destruct (G y Y) as [Hy|[Hy Y']]; try congruence. now apply IH.
Qed.
Lemma latest_snoc {C A} (f : C -> option A) d h a x : (f a = Some x \/ f a = None /\ latest f d h x) -> latest f d (h ++ [a]) x.
Proof.
  intros [E|[E [(h1 & b & h2 & -> & Fb & N)|[N ->]]]].
  - left. exists h, a, []. auto.
  - left. exists h1, b, (h2 ++ [a]). repeat split; auto; [now rewrite <- app_assoc|]. apply Forall_app. auto.
  - right. split; auto. apply Forall_app. auto.
Qed.
Lemma state_latest debug reg c h : let c' := fst (steps debug reg c h) in latest priority_of (level c) h (level c') /\ latest callback_of (out c) h (out c').
Proof.
  cbv zeta. induction h as [|a h [IH1 IH2]] using rev_ind.
  - split; right; split; auto.
  - rewrite steps_app. cbn [fst]. set (c' := fst (steps debug reg c h)) in *.
    split; apply latest_snoc; destruct a as [p|f d|f|m]; cbn [steps step fst priority_of callback_of level out]; auto.
Qed.

Lemma delivery debug reg c h1 m h2 p o : latest priority_of (level c) h1 p -> latest callback_of (out c) h1 o ->
  exists e, passed_on debug p o m e /\
    snd (steps debug reg c (h1 ++ Say m :: h2)) = snd (steps debug reg c h1) ++ e ++ snd (steps debug reg (mkCtx p o) h2).
Proof.
  intros P O. pose proof (state_latest debug reg c h1) as [L1 L2]. set (c' := fst (steps debug reg c h1)) in *.
  assert (E : c' = mkCtx p o). { rewrite <- (latest_fun _ _ _ _ _ L1 P), <- (latest_fun _ _ _ _ _ L2 O). now destruct c'. }
  exists (emit debug c' m). split. { pose proof (emit_passed debug c' m) as X. now rewrite E in X at 1 2. }
  rewrite steps_app. cbn [snd]. fold c'. cbn [steps step]. rewrite <- E. destruct (steps debug reg c' h2). reflexivity.
Qed.

(** Only callbacks that were set are called. *)
Lemma only_callbacks debug reg h f d m : forall c, In (Called f d m) (snd (steps debug reg c h)) ->
  In (Set_callback f d) h \/ out c = Callback f d.
Proof.
  assert (G : forall c m', In (Called f d m) (emit debug c m') -> out c = Callback f d).
  { intros c m'. unfold emit, loc_log_cond, loc_log. destruct ((prio m' =? LOG_DEBUG)%Z && negb debug); [intros []|].
    destruct (prio m' <=? level c)%Z; [|intros []]. destruct (out c) as [|f' d']; intros [H|[]]; congruence. }
  induction h as [|a h IH]; intros c H; [destruct H|]. cbn [steps] in H.
  destruct (step debug reg c a) as [c' e] eqn:St. destruct (steps debug reg c' h) as [c'' e'] eqn:Es. cbn [snd] in H.
  apply in_app_or in H. destruct H as [H|H].
  - destruct a as [p|f' d'|f'|m']; cbn [step] in St; inversion St; subst; try destruct H; right; eapply G; eassumption.
  - specialize (IH c'). rewrite Es in IH. cbn [snd] in IH. destruct (IH H) as [X|X]; [left; now right|].
    destruct a as [p|f' d'|f'|m']; cbn [step] in St; inversion St; subst; cbn [out] in X; auto. left. left. congruence.
Qed.
Lemma set_fn_nothing debug reg c h1 f h2 : (level (fst (steps debug reg c h1)) < 6)%Z ->
  steps debug reg c (h1 ++ Set_fn f :: h2) = steps debug reg c (h1 ++ h2).
Proof.
  intros L. rewrite !steps_app. set (c' := fst (steps debug reg c h1)) in *. cbn [steps step].
  assert (E : emit debug c' (set_fn_message reg f) = []).
  { unfold emit, loc_log_cond, set_fn_message, LOG_INFO. cbn [prio]. cbn [Z.eqb LOG_DEBUG Pos.eqb andb]. now replace (6 <=? level c')%Z with false by lia. }
  rewrite E. destruct (steps debug reg c' h2). reflexivity.
Qed.

(** ** Lua *)
Definition lua_inv (st : N) (env : option cstr) (p : list luacall) (l : lua) : Prop :=
  current l = Some 0%nat /\ exists c, contexts l = [c] /\ latest level_set (level_of env) p (level c) /\
    exists f, latest function_set None p f /\
      match f with Some f => out c = Callback the_callback st /\ nth_error (registry l st) (ref l) = Some (Fn f) | None => out c = Stderr end.
Lemma nth_snoc {A} (x : list A) y : nth_error (x ++ [y]) (List.length x) = Some y.
Proof. rewrite nth_error_app2 by lia. now rewrite Nat.sub_diag. Qed.
Lemma grow_keeps r st st' v k x : nth_error (r st) k = Some x -> nth_error (grow r st' v st) k = Some x.
Proof.
  intros H. unfold grow. destruct (st =? st'); auto. rewrite nth_error_app1; auto. apply nth_error_Some. congruence.
Qed.
Lemma lua_inv_step debug env st p l a l' es : lua_inv st env p l -> of_state st a -> lua_step debug env l a = Ok (l', es) -> lua_inv st env (p ++ [a]) l'.
Proof.
  intros (Cu & c & Cs & L & f & F & O) S1 H. destruct a as [s|s v|t|s v|i m]; cbn [of_state] in S1; cbn [lua_step] in H.
  - contradiction.
  - subst s. destruct v as [g|].
    + inversion H; subst l' es; clear H. split; [exact Cu|]. cbn [contexts]. rewrite Cu, Cs. cbn [upd nth].
      eexists. split; [reflexivity|]. cbn [level out]. split; [apply latest_snoc; right; auto|].
      exists (Some g). split; [apply latest_snoc; left; reflexivity|]. split; auto. cbn [registry ref]. unfold grow. rewrite N.eqb_refl. apply nth_snoc.
    + inversion H; subst l' es; clear H. split; [exact Cu|]. exists c. split; auto. split; [apply latest_snoc; right; auto|].
      exists f. split; auto. apply latest_snoc. right. auto.
  - destruct t as [z|]; [|discriminate]. destruct ((- 2 ^ 31 <=? z)%Z && (z <? 2 ^ 31)%Z); [|discriminate].
    inversion H; subst l' es; clear H. split; [exact Cu|]. cbn [contexts]. rewrite Cu, Cs. cbn [upd nth]. eexists. split; [reflexivity|]. cbn [level out].
    split; [apply latest_snoc; left; reflexivity|]. exists f. split; auto. apply latest_snoc. right. auto.
  - inversion H; subst l' es; clear H. split; [exact Cu|]. exists c. split; auto. split; [apply latest_snoc; right; auto|]. exists f. split; [apply latest_snoc; right; auto|].
    destruct f as [f|]; auto. destruct O as [O1 O2]. split; auto. cbn [registry ref]. now apply grow_keeps.
  - subst i. rewrite Cs in H. cbn [nth_error] in H. inversion H; subst l' es; clear H. split; [exact Cu|]. exists c. split; auto. split; [apply latest_snoc; right; auto|].
    exists f. split; auto. apply latest_snoc. right. auto.
Qed.
Lemma lua_inv_steps debug env st q : forall p l l' es, lua_inv st env p l -> Forall (of_state st) q -> lua_steps debug env l q = Ok (l', es) -> lua_inv st env (p ++ q) l'.
Proof.
  induction q as [|a q IH]; intros p l l' es V F H.
  - cbn [lua_steps] in H. inversion H; subst. now rewrite app_nil_r.
  - inversion F as [|? ? Fa Fq]; subst. cbn [lua_steps] in H. destruct (lua_step debug env l a) as [[l1 e1]|code| |] eqn:E; try discriminate.
    cbn [bind fst snd] in H. destruct (lua_steps debug env l1 q) as [[l2 e2]|code| |] eqn:E2; try discriminate. inversion H; subst.
    replace (p ++ a :: q) with ((p ++ [a]) ++ q) by now rewrite <- app_assoc. eapply IH; [|exact Fq|exact E2].
    eapply lua_inv_step; eassumption.
Qed.
Lemma lua_start st env : lua_inv st env [] (mkLua (fun _ => []) 0 (Some 0%nat) [mkCtx (level_of env) Stderr]).
Proof.
  split; auto. eexists. split; [reflexivity|]. split; [right; auto|]. exists None. split; [right; auto|]. reflexivity.
Qed.
Lemma lua_last debug env st p l es z f m : Forall (of_state st) p -> lua_steps debug env lua0 (Open st :: p) = Ok (l, es) ->
  latest level_set (level_of env) p z -> latest function_set None p f ->
  exists e, lua_step debug env l (Lua_say 0 m) = Ok (l, e) /\
    (important debug z m -> e = [lua_to st f m]) /\ (~ important debug z m -> e = []).
Proof.
  intros F H Z0 G. cbn [lua_steps lua_step lua0 bind fst snd contexts registry ref List.length app] in H.
  destruct (lua_steps debug env _ p) as [[l1 e1]|code| |] eqn:E in H; try discriminate. cbn [bind fst snd] in H. inversion H; subst.
  pose proof (lua_inv_steps debug env st p [] _ _ _ (lua_start st env) F E) as (Cu & c & Cs & L & f' & F' & O). cbn [app] in L, F'.
  pose proof (latest_fun _ _ _ _ _ L Z0) as EL. pose proof (latest_fun _ _ _ _ _ F' G) as EF. subst z f'.
  cbn [lua_step]. rewrite Cs. cbn [nth_error]. eexists. split; [reflexivity|].
  destruct (emit_passed debug c m) as [P1 P2].
  split; intros X.
  - rewrite (P1 X). cbn [map]. f_equal. destruct f as [f|]; cbn [lua_to].
    + destruct O as [O1 O2]. rewrite O1. cbn [to lua_seen]. unfold log_callback. now rewrite O2.
    + rewrite O. reflexivity.
  - now rewrite (P2 X).
Qed.
Lemma lua_fine debug env st p : Forall (of_state st) p -> Forall level_fits p -> exists l es, lua_steps debug env lua0 (Open st :: p) = Ok (l, es).
Proof.
  intros F V. cbn [lua_steps lua_step lua0 bind fst snd contexts registry ref List.length app].
  enough (X : forall l c, contexts l = [c] -> exists l' es, lua_steps debug env l p = Ok (l', es)).
  { edestruct X as (l & es & E); [|rewrite E; cbn [bind]; eexists; eexists; reflexivity]. reflexivity. }
  revert F V. induction p as [|a p IH]; intros F V l c E; [now eexists; eexists|].
  inversion F as [|? ? Fa Fp]; subst. inversion V as [|? ? Va Vp]; subst. cbn [lua_steps].
  assert (X : exists l1 e1 c1, lua_step debug env l a = Ok (l1, e1) /\ contexts l1 = [c1]).
  { destruct a as [s|s v|t|s v|i m]; cbn [of_state level_fits] in *; cbn [lua_step].
    - contradiction.
    - destruct v as [g|]; [|now exists l; eexists; exists c]. rewrite E. destruct (current l) as [[|i]|]; eexists; eexists; eexists; split; reflexivity.
    - destruct Va as (z & -> & Vz). replace ((- 2 ^ 31 <=? z)%Z && (z <? 2 ^ 31)%Z) with true by lia. rewrite E.
      destruct (current l) as [[|i]|]; eexists; eexists; eexists; split; reflexivity.
    - eexists; eexists; exists c; split; [reflexivity|exact E].
    - subst i. rewrite E. cbn [nth_error]. eexists; eexists; exists c; split; [reflexivity|exact E]. }
  destruct X as (l1 & e1 & c1 & Ea & Ec). rewrite Ea. cbn [bind fst snd]. destruct (IH Fp Vp l1 c1 Ec) as (l2 & e2 & ->). cbn [bind]. now eexists; eexists.
Qed.
(** Functions that were replaced stay. *)
Lemma lua_kept debug env st p : forall l l' es, lua_steps debug env l p = Ok (l', es) -> (List.length (registry l st) + functions_set st p <= List.length (registry l' st))%nat.
Proof.
  unfold functions_set. induction p as [|a p IH]; intros l l' es H.
  - cbn [lua_steps] in H. inversion H; subst. cbn. lia.
  - cbn [lua_steps] in H. destruct (lua_step debug env l a) as [[l1 e1]|code| |] eqn:E; try discriminate. cbn [bind fst snd] in H.
    destruct (lua_steps debug env l1 p) as [[l2 e2]|code| |] eqn:E2; try discriminate. inversion H; subst. apply IH in E2.
    enough (X : (List.length (registry l st) + List.length (filter (fun a => match a with Set_function s (Fn _) => (s =? st)%N | _ => false end) [a]) <= List.length (registry l1 st))%nat).
    { change (a :: p) with ([a] ++ p). rewrite filter_app, app_length. lia. }
    destruct a as [s|s v|t|s v|i m]; cbn [lua_step] in E; cbn [filter List.length].
    + inversion E; subst. cbn [registry]. lia.
    + destruct v as [g|]; inversion E; subst; cbn [registry]; [|cbn; lia]. unfold grow. rewrite (N.eqb_sym s st). destruct (st =? s); [rewrite app_length; cbn; lia|cbn; lia].
    + destruct t as [z|]; [|discriminate]. destruct ((- 2 ^ 31 <=? z)%Z && (z <? 2 ^ 31)%Z); [|discriminate]. inversion E; subst. cbn [registry]. lia.
    + inversion E; subst. cbn [registry]. unfold grow. destruct (st =? s); [rewrite app_length; cbn; lia|lia].
    + destruct (nth_error (contexts l) i); [|discriminate]. inversion E; subst. lia.
Qed.
Lemma level_unfit debug env l t : ~ level_fits (Set_level t) -> lua_step debug env l (Set_level t) = UB.
Proof.
  intros H. cbn [level_fits] in H. cbn [lua_step]. destruct t as [z|]; auto.
  destruct ((- 2 ^ 31 <=? z)%Z && (z <? 2 ^ 31)%Z) eqn:E; auto. destruct H. exists z. split; auto. lia.
Qed.
Lemma two_states m : m = mkMessage 3 [] 0 [] (txt "Could not open") ->
  seen (lua_steps false None lua0 [Open 1; Set_function 1 (Fn 10); Keep 1 (Fn 77); Open 2; Keep 2 Not_fn; Set_function 2 (Fn 20); Lua_say 0 m]) =
    Some [Lua_called 1 77 (prio m) (text m)] /\
  seen (lua_steps false None lua0 [Open 1; Set_function 1 (Fn 10); Open 2; Keep 2 Not_fn; Set_function 2 (Fn 20); Lua_say 0 m]) = Some [Lua_error 1].
Proof. intros ->. split; vm_compute; reflexivity. Qed.
