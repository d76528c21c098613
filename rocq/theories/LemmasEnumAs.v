(** Enumerating ASes and countries *)
From Coq Require Import NArith ZArith List Bool Arith Lia ZifyBool ZifyNat ZifyN Permutation Sorting.Sorted.
From Verif Require Import Base ModelAddress ModelCountryCode ModelNetwork ModelTree ModelStringPool ModelObjects
  ModelFile ModelWriter ModelDatabase ModelEnum SpecNetwork SpecStringPool SpecObjects SpecTree SpecWriter SpecEnum
  LemmasBase LemmasObjects LemmasWriter LemmasWrite LemmasOpen LemmasDb LemmasDbCountry LemmasDbProps.
Import ListNotations.
Open Scope N_scope.

(** ** strings *)
Lemma lower_iff x y : lower x = lower y <-> same_letter x y.
Proof.
  unfold lower, same_letter.
  destruct ((65 <=? x) && (x <=? 90)) eqn:A, ((65 <=? y) && (y <=? 90)) eqn:B; split; intros H; try lia.
Qed.
Lemma lower_lower x : lower (lower x) = lower x.
Proof. unfold lower at 2 3. destruct ((65 <=? x) && (x <=? 90)) eqn:A; unfold lower; [|now rewrite A]. replace ((65 <=? x + 32) && (x + 32 <=? 90)) with false by lia. reflexivity. Qed.

Lemma starts_iff s : forall t, starts_nocase t s = true <-> exists here after, t = here ++ after /\ Forall2 same_letter s here.
Proof.
  induction s as [|y s IH]; intros t.
  - destruct t; cbn [starts_nocase]; (split; [intros _|reflexivity]); eexists [], _; split; auto; reflexivity.
  - destruct t as [|x t]; cbn [starts_nocase].
    + split; [discriminate|]. intros (h & a & E & F). destruct h; [inversion F|discriminate].
    + rewrite andb_true_iff, IH. split.
      * intros [E (h & a & -> & F)]. exists (x :: h), a. split; auto. constructor; auto. apply lower_iff. lia.
      * intros (h & a & E & F). inversion F as [|? z ? h' L F']; subst. injection E as -> ->. split; [|eauto].
        apply lower_iff in L. lia.
Qed.

Lemma strcasestr_iff t s : strcasestr t s = true <-> occurs s t.
Proof.
  unfold occurs. induction t as [|x t IH]; cbn [strcasestr]; rewrite orb_true_iff, starts_iff.
  - split.
    + intros [(h & a & E & F)|]; [|discriminate]. exists [], h, a. auto.
    + intros (b & h & a & E & F). destruct b, h, a; try discriminate. left. exists [], []. auto.
  - rewrite IH. split.
    + intros [(h & a & E & F)|(b & h & a & -> & F)]; [exists [], h, a; auto|exists (x :: b), h, a; auto].
    + intros (b & h & a & E & F). destruct b as [|y b]; [left; exists h, a; auto|]. cbn [app] in E. injection E as <- ->. right. eauto.
Qed.

Lemma occurs_lower s t : occurs (map lower s) t <-> occurs s t.
Proof.
  unfold occurs. assert (X : forall h, Forall2 same_letter (map lower s) h <-> Forall2 same_letter s h).
  { induction s as [|x s IH]; intros h; cbn [map]; [reflexivity|]. split; intros F; inversion F; subst; constructor; try now apply IH.
    - apply lower_iff. rewrite <- lower_lower. now apply lower_iff.
    - apply lower_iff. rewrite lower_lower. now apply lower_iff. }
  split; intros (b & h & a & E & F); exists b, h, a; (split; [exact E|]); now apply X.
Qed.

(** ** configuration *)
Lemma configured_snoc m fl l s : configured m fl (l ++ [s]) = set_one (configured m fl l) s.
Proof. unfold configured. now rewrite fold_left_app. Qed.

Lemma configured_state m fl l : let e := configured m fl l in
  en_mode e = m /\ en_flatten e = fl /\ en_as_index e = 0 /\ en_country_index e = 0 /\ en_addr e = repeat 0 16 /\
  en_nodes e = [(0, 0, 0%nat)] /\ en_visited e = [] /\ en_stack e = ModelNetworkList.list_new /\
  en_subnets e = ModelNetworkList.list_new /\ en_gap6 e = addr_reset AF_INET6 /\ en_gap4 e = addr_reset AF_INET.
Proof.
  induction l as [|s l IH] using rev_ind; [cbn; auto 12|]. cbv zeta in *. rewrite configured_snoc. destruct s; exact IH.
Qed.

Lemma configured_string m fl l : en_string (configured m fl l) = option_map (map lower) (the_string l).
Proof.
  induction l as [|s l IH] using rev_ind; [reflexivity|]. rewrite configured_snoc. unfold the_string. rewrite fold_left_app.
  cbn [fold_left]. destruct s; cbn [set_one]; try exact IH. reflexivity.
Qed.

(** ** ASes *)
Lemma next_as_loop_spec d (as_at : nat -> as_obj) n s fuel : snd (d_as d) = N.of_nat n ->
  (forall i, (i < n)%nat -> fetch_as d (N.of_nat i) = Ok (as_at i)) ->
  forall i e, en_as_index e = N.of_nat i -> en_string e = s -> (i <= n)%nat -> (n <= i + fuel)%nat ->
  match filter (fun j => as_match_string (as_at j) s) (seq i (n - i)) with
  | [] => next_as_loop d e fuel = Ok (with_as_index e 0, None, 0%Z)
  | j :: _ => next_as_loop d e fuel = Ok (with_as_index e (N.of_nat (S j)), Some (as_at j), 0%Z)
  end.
Proof.
  intros C F. induction fuel as [|fuel IH]; intros i e Ei Es L1 L2; cbn [next_as_loop]; rewrite Ei, C.
  - replace (n - i)%nat with 0%nat by lia. cbn [seq filter]. replace (N.of_nat i <? N.of_nat n) with false by lia. reflexivity.
  - destruct (Nat.eq_dec i n) as [->|Ne].
    + rewrite Nat.sub_diag. cbn [seq filter]. replace (N.of_nat n <? N.of_nat n) with false by lia. reflexivity.
    + replace (N.of_nat i <? N.of_nat n) with true by lia. rewrite F by lia. cbn [en_string with_as_index].
      replace (n - i)%nat with (S (n - S i)) by lia. cbn [seq filter]. rewrite Es.
      replace (N.of_nat i + 1) with (N.of_nat (S i)) by lia.
      destruct (as_match_string (as_at i) s) eqn:M; [reflexivity|].
      specialize (IH (S i) (with_as_index e (N.of_nat (S i))) eq_refl Es ltac:(lia) ltac:(lia)).
      destruct (filter _ _); exact IH.
Qed.

Lemma filter_seq_next (P : nat -> bool) n j l : forall i, filter P (seq i (n - i)) = j :: l ->
  (i <= j < n)%nat /\ l = filter P (seq (S j) (n - S j)).
Proof.
  intros i. remember (n - i)%nat as k. revert i Heqk. induction k as [|k IH]; intros i E H; [discriminate|].
  cbn [seq filter] in H. destruct (P i).
  - injection H as <- <-. split; [lia|]. f_equal. f_equal. lia.
  - apply IH in H; [|lia]. split; [lia|]. apply H.
Qed.

Lemma enumerate_as d (as_at : nat -> as_obj) n s : snd (d_as d) = N.of_nat n ->
  (forall i, (i < n)%nat -> fetch_as d (N.of_nat i) = Ok (as_at i)) ->
  forall l i e, en_mode e = Ases -> en_as_index e = N.of_nat i -> en_string e = s -> (i <= n)%nat ->
  filter (fun j => as_match_string (as_at j) s) (seq i (n - i)) = l -> enumerates (next_as d) e (map as_at l).
Proof.
  intros C F. induction l as [|j l IH]; intros i e Em Ei Es L E.
  - pose proof (next_as_loop_spec d as_at n s n C F i e Ei Es L ltac:(lia)) as X. rewrite E in X.
    exists e, (with_as_index e 0). split; [constructor|]. unfold next_as. rewrite Em, C, Nat2N.id. exact X.
  - pose proof (next_as_loop_spec d as_at n s n C F i e Ei Es L ltac:(lia)) as X. rewrite E in X.
    apply filter_seq_next in E as [Hj ->].
    destruct (IH (S j) (with_as_index e (N.of_nat (S j))) Em eq_refl Es ltac:(lia) eq_refl) as (e1 & e2 & R & En).
    exists e1, e2. split; auto. cbn [map]. econstructor; [|exact R]. unfold next_as. rewrite Em, C, Nat2N.id. exact X.
Qed.

Section Props.
Variables (ctz0 : nat) (held : network -> bool) (key1 key2 : option evp).
Variables (os : list call) (w : writer) (x : save) (w' : writer) (f : list N) (d : db).
Hypothesis Call : Forall call_ok os.
Hypothesis Prog : program ctz0 held key1 key2 os = Ok w.
Hypothesis Write : write_to ctz0 held key1 key2 w x = Ok (0%Z, w', f).
Hypothesis Size : N.of_nat (length f) < 2 ^ 32.
Hypothesis Now : s_now x < 2 ^ 64.
Hypothesis Open : db_open f = Ok d.

Lemma enumerate_ases fl l : exists L, enumerates (next_as d) (configured Ases fl l) L /\
  StronglySorted (fun a b => as_number a < as_number b) L /\
  forall r, In r L <-> exists a, In a (ases (meaning os)) /\
    r = mkAs 0 (the_number a) (Some (match the_name a with Some s => s | None => [] end)) /\
    match the_string l with Some s => occurs s (match the_name a with Some s => s | None => [] end) | None => True end.
Proof.
  destruct (is_written_d _ _ _ _ _ _ _ _ _ _ Call Prog Write Size Now Open) as (ss & ss' & e & offs & nets & rest & Q).
  destruct (as_table _ _ _ _ _ _ _ _ _ _ _ _ _ _ Q) as [A Pm].
  pose proof (count_as_spec _ _ _ _ _ _ _ _ _ _ _ _ _ _ Q) as C. unfold count_as in C.
  set (t := ol_elems (w_as w')) in *.
  set (as_at i := match nth_error t i with Some a => mkAs 0 (as_number a) (Some (name_or_empty (as_name a))) | None => mkAs 0 0 None end).
  assert (F : forall i, (i < length t)%nat -> fetch_as d (N.of_nat i) = Ok (as_at i)).
  { intros i Hi. destruct (nth_error t i) as [a|] eqn:E; [|apply nth_error_None in E; lia]. unfold as_at. rewrite E.
    exact (fetch_as_spec _ _ _ _ _ _ _ _ _ _ _ _ _ _ i a Q E). }
  destruct (configured_state Ases fl l) as (S1 & _ & S2 & _).
  set (P := fun j => as_match_string (as_at j) (option_map (map lower) (the_string l))).
  exists (map as_at (filter P (seq 0 (length t)))). split; [|split].
  - apply (enumerate_as d as_at (length t) (option_map (map lower) (the_string l)) C F) with (i := 0%nat); auto; try lia.
    + apply configured_string.
    + now rewrite Nat.sub_0_r.
  - clear -A. assert (G : forall k i, (i + k <= length t)%nat -> StronglySorted (fun a b => as_number a < as_number b) (map as_at (filter P (seq i k)))).
    { induction k as [|k IH]; intros i L; [constructor|]. cbn [seq filter]. specialize (IH (S i) ltac:(lia)).
      destruct (P i); [|exact IH]. cbn [map]. constructor; [exact IH|]. apply Forall_forall. intros b I.
      apply in_map_iff in I as (j & <- & I). apply filter_In in I as [I _]. apply in_seq in I.
      destruct (nth_error t i) as [a|] eqn:E1; [|apply nth_error_None in E1; lia].
      destruct (nth_error t j) as [b|] eqn:E2; [|apply nth_error_None in E2; lia].
      unfold as_at. rewrite E1, E2. cbn [as_number]. eapply (ascending_nth 0%nat); [exact A| |exact E1|exact E2]; lia. }
    apply G. lia.
  - intros r. rewrite in_map_iff.
    assert (M : forall a, In a t -> as_match_string (mkAs 0 (as_number a) (Some (name_or_empty (as_name a)))) (option_map (map lower) (the_string l)) = true <->
      match the_string l with Some s => occurs s (match as_name a with Some s => s | None => [] end) | None => True end).
    { intros a _. destruct (the_string l) as [s|]; cbn [option_map as_match_string as_name]; [|tauto].
      rewrite strcasestr_iff, occurs_lower. reflexivity. }
    split.
    + intros (j & <- & I). apply filter_In in I as [I Pj]. apply in_seq in I.
      destruct (nth_error t j) as [a|] eqn:E; [|apply nth_error_None in E; lia].
      exists (the_as a). split.
      { apply (Permutation_in _ Pm). apply in_map. eapply nth_error_In; eauto. }
      unfold P, as_at in Pj. rewrite E in Pj. unfold as_at. rewrite E. split; [reflexivity|].
      apply M in Pj; [exact Pj|]. eapply nth_error_In; eauto.
    + intros (a & I & -> & Ms). apply (Permutation_in _ (Permutation_sym Pm)) in I. apply in_map_iff in I as (b & <- & I).
      pose proof I as Ib. apply In_nth_error in I as [j E].
      assert (j < length t)%nat by (apply nth_error_Some; congruence).
      exists j. unfold as_at at 1. rewrite E. split; [reflexivity|]. apply filter_In. split; [apply in_seq; lia|].
      unfold P, as_at. rewrite E. apply M; auto.
Qed.

(** ** Countries *)
Lemma enumerate_country n : forall k i e, en_mode e = Countries -> en_country_index e = N.of_nat i -> (i + k = n)%nat ->
  forall at_, snd (d_countries d) = N.of_nat n -> (forall i, (i < n)%nat -> fetch_country d (N.of_nat i) = Ok (at_ i)) ->
  enumerates (next_country d) e (map at_ (seq i k)).
Proof.
  intros k. induction k as [|k IH]; intros i e Em Ei L at_ C F.
  - exists e, (with_country_index e 0). split; [constructor|]. unfold next_country. rewrite Em, Ei, C.
    replace (N.of_nat i <? N.of_nat n) with false by lia. reflexivity.
  - destruct (IH (S i) (with_country_index e (N.of_nat (S i))) Em eq_refl ltac:(lia) at_ C F) as (e1 & e2 & R & En).
    exists e1, e2. split; auto. cbn [seq map]. econstructor; [|exact R]. unfold next_country. rewrite Em, Ei, C.
    replace (N.of_nat i <? N.of_nat n) with true by lia. rewrite F by lia.
    replace (N.of_nat i + 1) with (N.of_nat (S i)) by lia. reflexivity.
Qed.

Lemma enumerate_countries fl l :
  let block := if fst (s_block0 x) =? 0 then None else Some (cc_str (s_block0 x)) in
  exists L, enumerates (next_country d) (configured Countries fl l) L /\
  length L = length (countries (meaning os)) /\
  forall i y z, nth_error L i = Some y -> nth_error (countries (meaning os)) i = Some z ->
    cc_str (c_code y) = the_code z /\
    nth_error (continents_read block (countries (meaning os))) i = Some (country_get_continent_code y) /\
    country_get_name y = Ok (Some (match the_country_name z with Some s => s | None => [] end)).
Proof.
  cbv zeta. destruct (written_countries _ _ _ _ _ _ _ _ _ _ Call Prog Write Size Now Open) as [C F].
  set (t := countries (meaning os)) in *.
  set (at_ i := match fetch_country d (N.of_nat i) with Ok y => y | _ => mkCountry 0 (0, 0) (0, 0) NoName end).
  exists (map at_ (seq 0 (length t))). split; [|split].
  - destruct (configured_state Countries fl l) as (S1 & _ & _ & S2 & _).
    apply (enumerate_country (length t) (length t) 0 _ S1 S2 eq_refl at_ C).
    intros i Hi. destruct (nth_error t i) as [z|] eqn:E; [|apply nth_error_None in E; lia].
    destruct (F i z E) as (y & Fy & _). unfold at_. now rewrite Fy.
  - now rewrite map_length, seq_length.
  - intros i y z Ey Ez. destruct (F i z Ez) as (y' & Fy & Y).
    assert (i < length t)%nat by (apply nth_error_Some; congruence).
    assert (Ei : nth_error (seq 0 (length t)) i = Some i).
    { rewrite (nth_error_nth' _ 0%nat) by (now rewrite seq_length). now rewrite seq_nth. }
    rewrite (map_nth_error at_ i _ Ei) in Ey. unfold at_ in Ey. rewrite Fy in Ey. injection Ey as <-. exact Y.
Qed.
End Props.
