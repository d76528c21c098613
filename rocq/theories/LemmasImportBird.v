(** Answers of Bird *)
From Coq Require Import NArith ZArith List Bool Lia ZifyBool ZifyNat ZifyN.
From Verif Require Import Base ModelCountryCode ModelImport SpecImport LemmasImport.
Import ListNotations.
Open Scope N_scope.

Lemma status_coded : forall l code rest, ~ In NEWLINE l ->
  (status (l ++ [NEWLINE]) = Some (code, rest) <-> exists r, coded l code r /\ rest = r ++ [NEWLINE]).
Proof.
  intros l code rest NL. unfold coded, digit. split.
  - intro H. destruct l as [|a [|b [|c [|d [|x l]]]]]; try discriminate.
    + exfalso. cbn [app status] in H. change ((NEWLINE =? 32) || (NEWLINE =? 45)) with false in H.
      rewrite andb_false_r in H. discriminate.
    + cbn [app status] in H. unfold is_digit in H.
      destruct (_ && _)%bool eqn:E in H; [|discriminate].
      rewrite !andb_true_iff, orb_true_iff, !N.leb_le, !N.eqb_eq in E.
      assert (X : (a - 48) * 1000 + (b - 48) * 100 + (c - 48) * 10 + (d - 48) = code) by congruence.
      assert (Y : l ++ [NEWLINE] = rest) by congruence.
      exists l. split; [|symmetry; exact Y]. exists a, b, c, d, x. repeat split; try tauto; lia.
  - intros (r & (a & b & c & d & x & -> & A & B & C & D & X & K) & ->).
    cbn [app status]. unfold is_digit.
    replace ((48 <=? a) && (a <=? 57) && ((48 <=? b) && (b <=? 57)) && ((48 <=? c) && (c <=? 57)) && ((48 <=? d) && (d <=? 57)) && ((x =? 32) || (x =? 45))) with true by lia.
    repeat f_equal. lia.
Qed.
Lemma coded_same : forall l c r c' r', coded l c r -> coded l c' r' -> c = c' /\ r = r'.
Proof.
  intros l c r c' r' (a1 & b1 & c1 & d1 & x1 & E1 & _ & _ & _ & _ & _ & K1) (a2 & b2 & c2 & d2 & x2 & E2 & _ & _ & _ & _ & _ & K2).
  rewrite E1 in E2. inversion E2. subst. split; [lia|reflexivity].
Qed.

Definition good (l : list N) : Prop := l <> [] /\ ~ In NEWLINE l.
Definition line_step (f : nat) (l rest : list N) : list (list N) * option (list N) :=
  match status (l ++ [NEWLINE]) with
  | Some (code, line') =>
      if code =? 0 then ([], None)
      else if code =? 1 then bird_lines f rest
      else let (l, r) := bird_lines f rest in (line' :: l, r)
  | None => let (x, r) := bird_lines f rest in ((l ++ [NEWLINE]) :: x, r)
  end.
Lemma bird_line : forall f l rest, good l -> bird_lines (S f) (l ++ NEWLINE :: rest) = line_step f l rest.
Proof.
  intros f l rest [NE NL]. cbn [bird_lines]. rewrite partition_plain by exact NL.
  destruct l as [|c l]; [contradiction|]. reflexivity.
Qed.
Lemma line_gives : forall f l out rest, good l -> gives l out ->
  line_step f l rest = (out ++ fst (bird_lines f rest), snd (bird_lines f rest)).
Proof.
  intros f l out rest [_ NL] G. unfold line_step. destruct G as [r C|code r C N0 N1|NC].
  - rewrite (proj2 (status_coded l 1 _ NL) (ex_intro _ r (conj C eq_refl))).
    cbn. destruct (bird_lines f rest); reflexivity.
  - rewrite (proj2 (status_coded l code _ NL) (ex_intro _ r (conj C eq_refl))).
    replace (code =? 0) with false by lia. replace (code =? 1) with false by lia.
    destruct (bird_lines f rest); reflexivity.
  - destruct (status (l ++ [NEWLINE])) as [[code x]|] eqn:E.
    + exfalso. apply status_coded in E; [|exact NL]. destruct E as (r & E & _). exact (NC _ _ E).
    + destruct (bird_lines f rest); reflexivity.
Qed.
Lemma lines_give : forall ls outs tl f, Forall good ls -> Forall2 gives ls outs ->
  bird_lines (length ls + f) (answer ls ++ tl) = (concat outs ++ fst (bird_lines f tl), snd (bird_lines f tl)).
Proof.
  intros ls outs tl f G F. induction F as [|l out ls outs H F IH].
  - cbn. destruct (bird_lines f tl); reflexivity.
  - apply Forall_cons_iff in G. destruct G as [G1 G].
    change (answer (l :: ls)) with ((l ++ [NEWLINE]) ++ answer ls). rewrite <- !app_assoc. cbn [app length plus].
    rewrite bird_line by exact G1. rewrite (line_gives _ _ out) by assumption. rewrite (IH G). cbn [fst snd concat].
    rewrite app_assoc. reflexivity.
Qed.
Lemma stuck_part : forall f tl, ~ In NEWLINE tl -> bird_lines f tl = ([], Some tl).
Proof.
  intros [|f] tl N; [reflexivity|]. cbn [bird_lines]. rewrite partition_none by exact N. destruct tl; reflexivity.
Qed.
Lemma stuck_blank : forall f tl, bird_lines f (NEWLINE :: tl) = ([], Some (NEWLINE :: tl)).
Proof. intros [|f] tl; reflexivity. Qed.
Lemma ended : forall f fin r tl, (0 < f)%nat -> ~ In NEWLINE fin -> coded fin 0 r ->
  bird_lines f (fin ++ NEWLINE :: tl) = ([], None).
Proof.
  intros [|f] fin r tl F NL C; [lia|]. rewrite bird_line.
  - unfold line_step. rewrite (proj2 (status_coded fin 0 _ NL) (ex_intro _ r (conj C eq_refl))). reflexivity.
  - split; [|exact NL]. intros ->. destruct C as (? & ? & ? & ? & ? & C & _). discriminate.
Qed.

Lemma answer_app : forall a b, answer (a ++ b) = answer a ++ answer b.
Proof. intros. unfold answer. rewrite map_app, concat_app. reflexivity. Qed.
Lemma answer_length : forall ls, (length ls <= length (answer ls))%nat.
Proof.
  induction ls as [|l ls IH]; [cbn; lia|]. change (answer (l :: ls)) with ((l ++ [NEWLINE]) ++ answer ls).
  rewrite !app_length. cbn [length]. lia.
Qed.
Lemma app_prefix : forall (a b c d : list N), a ++ b = c ++ d ->
  (exists x, a = c ++ x /\ d = x ++ b) \/ (exists x, c = a ++ x /\ b = x ++ d).
Proof.
  induction a as [|x a IH]; intros b c d H.
  - right. exists c. split; [reflexivity|exact H].
  - destruct c as [|y c].
    + left. exists (x :: a). split; [reflexivity|]. symmetry. exact H.
    + cbn [app] in H. assert (x = y) by congruence. subst y. assert (H' : a ++ b = c ++ d) by congruence.
      destruct (IH b c d H') as [(z & -> & ->)|(z & -> & ->)]; [left|right]; exists z; split; reflexivity.
Qed.
(** what has been received are lines and a part of the next one *)
Lemma received : forall ls b y tl, Forall good ls -> b ++ y = answer ls ++ tl ->
  exists ls1 ls2 part, ls = ls1 ++ ls2 /\ b = answer ls1 ++ part /\ part ++ y = answer ls2 ++ tl /\
    (~ In NEWLINE part \/ ls2 = []).
Proof.
  induction ls as [|l ls IH]; intros b y tl G H.
  - exists [], [], b. split; [reflexivity|]. split; [reflexivity|]. split; [exact H|right; reflexivity].
  - apply Forall_cons_iff in G. destruct G as [[_ NL] G].
    change (answer (l :: ls)) with ((l ++ [NEWLINE]) ++ answer ls) in H. rewrite <- !app_assoc in H. cbn [app] in H.
    destruct (app_prefix _ _ _ _ H) as [(x & -> & E)|(x & -> & E)].
    + destruct x as [|c x].
      * exists [], (l :: ls), l. rewrite app_nil_r. split; [reflexivity|]. split; [reflexivity|]. split.
        -- cbn [app] in E. rewrite <- E. change (answer (l :: ls)) with ((l ++ [NEWLINE]) ++ answer ls).
           rewrite <- !app_assoc. reflexivity.
        -- left. exact NL.
      * cbn [app] in E. assert (c = NEWLINE) by congruence. subst c. assert (E' : x ++ y = answer ls ++ tl) by congruence.
        destruct (IH x y tl G E') as (ls1 & ls2 & part & -> & -> & P & Q).
        exists (l :: ls1), ls2, part. split; [reflexivity|]. split; [|split; assumption].
        change (answer (l :: ls1)) with ((l ++ [NEWLINE]) ++ answer ls1). rewrite <- !app_assoc. reflexivity.
    + exists [], ((b ++ x) :: ls), b. split; [reflexivity|]. split; [reflexivity|]. split.
      * change (answer ((b ++ x) :: ls)) with (((b ++ x) ++ [NEWLINE]) ++ answer ls). rewrite E, <- !app_assoc. reflexivity.
      * left. intro X. apply NL. apply in_or_app. left. exact X.
Qed.

Section Tail.
  Variable tl : list N.
  Lemma received_step : forall ls outs b, Forall good ls -> Forall2 gives ls outs ->
    forall c cs, b ++ c ++ concat cs = answer ls ++ tl ->
    (exists ls1 ls2 outs1 outs2 part, ls = ls1 ++ ls2 /\ outs = outs1 ++ outs2 /\ Forall good ls2 /\ Forall2 gives ls2 outs2 /\
      ~ In NEWLINE part /\ part ++ concat cs = answer ls2 ++ tl /\
      bird_cmd b (c :: cs) = (concat outs1 ++ fst (bird_cmd part cs), snd (bird_cmd part cs))) \/
    (exists part f, part ++ concat cs = tl /\ In NEWLINE part /\ (0 < f)%nat /\
      bird_cmd b (c :: cs) = match bird_lines f part with
                             | (x, None) => (concat outs ++ x, true)
                             | (x, Some r) => ((concat outs ++ x) ++ fst (bird_cmd r cs), snd (bird_cmd r cs))
                             end).
  Proof.
    intros ls outs b G F c cs H. rewrite app_assoc in H.
    destruct (received _ _ _ _ G H) as (ls1 & ls2 & part & -> & B & P & Q).
    apply Forall2_app_inv_l in F. destruct F as (outs1 & outs2 & F1 & F2 & ->).
    apply Forall_app in G. destruct G as [G1 G2].
    assert (L : exists n, S (length (b ++ c)) = (length ls1 + n)%nat /\ (0 < n)%nat).
    { exists (S (length (b ++ c)) - length ls1)%nat. rewrite B, app_length. pose proof (answer_length ls1). lia. }
    destruct L as (n & L & L1).
    destruct (in_dec N.eq_dec NEWLINE part) as [I|I].
    - destruct Q as [Q|Q]; [contradiction|]. subst ls2. inversion F2. subst outs2. rewrite !app_nil_r.
      right. exists part, n. split; [exact P|]. split; [exact I|]. split; [exact L1|].
      cbn [bird_cmd]. rewrite L. rewrite B. rewrite (lines_give ls1 outs1) by assumption.
      destruct (bird_lines _ part) as [x [r|]]; cbn [fst snd]; [|reflexivity]. destruct (bird_cmd r cs); reflexivity.
    - left. exists ls1, ls2, outs1, outs2, part. repeat (split; [first [reflexivity|assumption]|]).
      cbn [bird_cmd]. rewrite L. rewrite B. rewrite (lines_give ls1 outs1) by assumption.
      rewrite stuck_part by exact I. cbn [fst snd]. rewrite app_nil_r. destruct (bird_cmd part cs); reflexivity.
  Qed.
End Tail.
Lemma no_newline_answer : forall b ls tl, ~ In NEWLINE b -> b = answer ls ++ tl -> ls = [].
Proof.
  intros b [|l ls] tl N E; [reflexivity|exfalso]. apply N. rewrite E.
  change (answer (l :: ls)) with ((l ++ [NEWLINE]) ++ answer ls). rewrite <- !app_assoc.
  apply in_or_app. right. left. reflexivity.
Qed.
Lemma cmd_end : forall fin r rest chunks ls outs b, ~ In NEWLINE fin -> coded fin 0 r ->
  Forall good ls -> Forall2 gives ls outs -> ~ In NEWLINE b ->
  b ++ concat chunks = answer ls ++ fin ++ NEWLINE :: rest -> bird_cmd b chunks = (concat outs, true).
Proof.
  intros fin r rest chunks. induction chunks as [|c cs IH]; intros ls outs b NF C G F NB H.
  - exfalso. apply NB. cbn in H. rewrite app_nil_r in H. rewrite H. apply in_or_app. right. apply in_or_app. right. left. reflexivity.
  - cbn [concat] in H.
    destruct (received_step _ ls outs b G F c cs H) as [(ls1 & ls2 & outs1 & outs2 & part & E1 & E2 & G2 & F2 & NP & P & R)|(part & f & P & IP & LF & R)].
    + rewrite R. rewrite (IH ls2 outs2 part NF C G2 F2 NP P). cbn [fst snd]. rewrite <- concat_app, <- E2. reflexivity.
    + rewrite R. destruct (app_prefix _ _ _ _ P) as [(x & -> & E)|(x & E & _)].
      * destruct x as [|y x]; [rewrite app_nil_r in IP; contradiction|]. cbn [app] in E.
        assert (y = NEWLINE) by congruence. subst y. rewrite (ended f fin r x LF NF C). rewrite app_nil_r. reflexivity.
      * exfalso. apply NF. rewrite E. apply in_or_app. left. exact IP.
Qed.
Lemma cmd_stuck : forall cs x, bird_cmd (NEWLINE :: x) cs = ([], false).
Proof.
  induction cs as [|c cs IH]; intro x; [reflexivity|]. cbn [bird_cmd]. cbn [app]. rewrite stuck_blank, IH. reflexivity.
Qed.
Lemma cmd_blank : forall rest chunks ls outs b,
  Forall good ls -> Forall2 gives ls outs -> ~ In NEWLINE b ->
  b ++ concat chunks = answer ls ++ NEWLINE :: rest -> bird_cmd b chunks = (concat outs, false).
Proof.
  intros rest chunks. induction chunks as [|c cs IH]; intros ls outs b G F NB H.
  - exfalso. apply NB. cbn in H. rewrite app_nil_r in H. rewrite H. apply in_or_app. right. left. reflexivity.
  - cbn [concat] in H.
    destruct (received_step _ ls outs b G F c cs H) as [(ls1 & ls2 & outs1 & outs2 & part & E1 & E2 & G2 & F2 & NP & P & R)|(part & f & P & IP & LF & R)].
    + rewrite R. rewrite (IH ls2 outs2 part G2 F2 NP P). cbn [fst snd]. rewrite <- concat_app, <- E2. reflexivity.
    + rewrite R. destruct part as [|y part]; [destruct IP|]. cbn [app] in P. assert (y = NEWLINE) by congruence. subst y.
      rewrite stuck_blank, cmd_stuck. cbn [fst snd]. rewrite !app_nil_r. reflexivity.
Qed.
Lemma cmd_part : forall tl chunks ls outs b, ~ In NEWLINE tl ->
  Forall good ls -> Forall2 gives ls outs -> ~ In NEWLINE b ->
  b ++ concat chunks = answer ls ++ tl -> bird_cmd b chunks = (concat outs, false).
Proof.
  intros tl chunks. induction chunks as [|c cs IH]; intros ls outs b NT G F NB H.
  - cbn in H. rewrite app_nil_r in H. apply no_newline_answer in H; [|exact NB]. subst ls. inversion F. reflexivity.
  - cbn [concat] in H.
    destruct (received_step _ ls outs b G F c cs H) as [(ls1 & ls2 & outs1 & outs2 & part & E1 & E2 & G2 & F2 & NP & P & R)|(part & f & P & IP & LF & R)].
    + rewrite R. rewrite (IH ls2 outs2 part NT G2 F2 NP P). cbn [fst snd]. rewrite <- concat_app, <- E2. reflexivity.
    + exfalso. apply NT. rewrite <- P. apply in_or_app. left. exact IP.
Qed.
