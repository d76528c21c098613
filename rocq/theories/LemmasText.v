(** Lemmas about text: printing and reading numbers and addresses. *)
From Coq Require Import NArith ZArith List Bool Arith Lia ZifyBool ZifyNat ZifyN.
From Verif Require Import Base LemmasBase ModelAddress LemmasAddress ModelCountryCode ModelNetwork ModelText SpecText.
Import ListNotations.
Open Scope N_scope.

(** * Printing numbers *)
Fixpoint dlist (base : N) (fuel : nat) (n : N) : list N :=
  match fuel with
  | O => []
  | S fuel' => if n <? base then [n] else dlist base fuel' (n / base) ++ [n mod base]
  end.

Lemma digits_dlist base fuel n : digits base fuel n = map digit_char (dlist base fuel n).
Proof.
  revert n; induction fuel; intros n; cbn; auto. destruct (n <? base); cbn; auto.
  now rewrite map_app, IHfuel.
Qed.

Lemma number_app base l d : number base (l ++ [d]) = number base l * base + d.
Proof. unfold number. now rewrite fold_left_app. Qed.

Lemma div_lt_pow base fuel n : 2 <= base -> n < base ^ N.of_nat (S fuel) -> n / base < base ^ N.of_nat fuel.
Proof.
  intros B H. rewrite Nat2N.inj_succ, N.pow_succ_r' in H. apply N.div_lt_upper_bound; lia.
Qed.

Lemma dlist_spec base : 2 <= base -> forall fuel n, n < base ^ N.of_nat (S fuel) ->
  let l := dlist base (S fuel) n in
  number base l = n /\ Forall (fun d => d < base) l /\ l <> [] /\ (length l <= S fuel)%nat /\
  (hd 0 l = 0 -> l = [0]).
Proof.
  intros B. induction fuel as [|fuel IH]; intros n H; cbn zeta.
  - change (N.of_nat 1) with 1 in H. rewrite N.pow_1_r in H. cbn [dlist].
    replace (n <? base) with true by lia. repeat split; try (constructor; auto); auto; try discriminate.
    cbn. congruence.
  - change (dlist base (S (S fuel)) n) with
      (if n <? base then [n] else dlist base (S fuel) (n / base) ++ [n mod base]).
    destruct (N.ltb_spec n base).
    + repeat split; try (constructor; auto); auto; try discriminate; cbn; try lia. congruence.
    + pose proof (IH (n / base) (div_lt_pow _ _ _ B H)) as (V & F & E & L & Z).
      set (l := dlist base (S fuel) (n / base)) in *.
      rewrite number_app, V. repeat split.
      * pose proof (N.div_mod' n base). lia.
      * apply Forall_app. split; auto. constructor; auto. apply N.mod_lt; lia.
      * destruct l; discriminate.
      * rewrite app_length. cbn [length]. lia.
      * intros Q. destruct l as [|x l]; [contradiction|]. cbn [hd app] in *. specialize (Z Q).
        assert (1 <= n / base) by (apply N.div_le_lower_bound; lia).
        exfalso. assert (n / base = 0); [|lia]. rewrite <- V, Z. reflexivity.
Qed.

(** more fuel gives the same digits *)
Lemma dlist_fuel base : 2 <= base -> forall f1 f2 n, n < base ^ N.of_nat (S f1) -> (f1 <= f2)%nat ->
  dlist base (S f2) n = dlist base (S f1) n.
Proof.
  intros B. induction f1 as [|f1 IH]; intros f2 n H L.
  - change (N.of_nat 1) with 1 in H. rewrite N.pow_1_r in H. cbn [dlist]. now replace (n <? base) with true by lia.
  - destruct f2 as [|f2]; [lia|]. change (dlist base (S (S f2)) n) with
      (if n <? base then [n] else dlist base (S f2) (n / base) ++ [n mod base]).
    change (dlist base (S (S f1)) n) with
      (if n <? base then [n] else dlist base (S f1) (n / base) ++ [n mod base]).
    destruct (n <? base); auto. rewrite (IH f2); auto using div_lt_pow. lia.
Qed.

Lemma dlist_short base k f n : 2 <= base -> n < base ^ N.of_nat (S k) -> (k <= f)%nat ->
  (length (dlist base (S f) n) <= S k)%nat.
Proof. intros B H L. rewrite (dlist_fuel base B k f) by auto. now apply dlist_spec. Qed.

Lemma dlist_10 base f n d : 2 <= base -> n <> 0 -> d < base -> n < base ^ N.of_nat (S f) ->
  dlist base (S (S f)) (n * base + d) = dlist base (S f) n ++ [d].
Proof.
  intros B N0 D H.
  change (dlist base (S (S f)) (n * base + d)) with
    (if n * base + d <? base then [n * base + d]
     else dlist base (S f) ((n * base + d) / base) ++ [(n * base + d) mod base]).
  replace (n * base + d <? base) with false by nia.
  replace ((n * base + d) / base) with n by (rewrite N.div_add_l by lia; rewrite N.div_small; lia).
  rewrite N.add_comm, N.mod_add, N.mod_small by lia. reflexivity.
Qed.

Lemma digit_char_10 d : d < 10 -> digit_char d = 48 + d.
Proof. intros H. unfold digit_char. now replace (d <? 10) with true by lia. Qed.

Lemma pow_10_40 n : n < 2 ^ 32 -> n < 10 ^ N.of_nat 40.
Proof. intros H. eapply N.lt_trans; [exact H|reflexivity]. Qed.

(** decimal text of a 32-bit number *)
Definition dd (n : N) : list N := dlist 10 40 n.

Lemma dd_spec n : n < 2 ^ 32 ->
  number 10 (dd n) = n /\ Forall (fun d => d < 10) (dd n) /\ dd n <> [] /\ (hd 0 (dd n) = 0 -> dd n = [0]).
Proof.
  intros H. destruct (dlist_spec 10 ltac:(lia) 39 n (pow_10_40 _ H)) as (A & B & C & _ & D). auto.
Qed.

Lemma dec_dd n : n < 2 ^ 32 -> dec n = map (fun d => 48 + d) (dd n).
Proof.
  intros H. unfold dec, dd. rewrite digits_dlist. apply map_ext_in. intros d I. apply digit_char_10.
  destruct (dd_spec n H) as (_ & F & _). rewrite Forall_forall in F. apply (F d I).
Qed.

Lemma dec_plain n : n < 2 ^ 32 -> plain_decimal (dec n) n.
Proof.
  intros H. destruct (dd_spec n H) as (A & B & C & D). rewrite dec_dd by auto. split.
  - exists (dd n). auto.
  - destruct (dd n) as [|x l]; [contradiction|]. cbn [map hd] in *. intros E.
    assert (X : x = 0) by lia. specialize (D X). injection D as -> ->. reflexivity.
Qed.

Lemma dec_length k n : n < 10 ^ N.of_nat (S k) -> (k <= 39)%nat -> (length (dec n) <= S k)%nat.
Proof.
  intros H L. unfold dec. rewrite digits_dlist, map_length. apply dlist_short; auto. lia.
Qed.

Lemma hex_length k n : n < 16 ^ N.of_nat (S k) -> (k <= 39)%nat -> (length (hex n) <= S k)%nat.
Proof.
  intros H L. unfold hex. rewrite digits_dlist, map_length. apply dlist_short; auto. lia.
Qed.

Lemma dlist_step f v d : v <> 0 -> v < 10 ^ N.of_nat (S f) -> d < 10 ->
  map digit_char (dlist 10 (S (S f)) (v * 10 + d)) = map digit_char (dlist 10 (S (S f)) v) ++ [48 + d].
Proof.
  intros V H D. rewrite dlist_10 by (auto; lia). rewrite map_app. cbn [map]. rewrite (digit_char_10 d D).
  rewrite (dlist_fuel 10 ltac:(lia) f (S f) v H) by lia. reflexivity.
Qed.

Lemma pow_10_39 n : n < 2 ^ 32 -> n < 10 ^ N.of_nat 39.
Proof. intros H. eapply N.lt_trans; [exact H|reflexivity]. Qed.

Lemma dec_step v d : v <> 0 -> v < 2 ^ 32 -> d < 10 -> dec (v * 10 + d) = dec v ++ [48 + d].
Proof.
  intros V H D. unfold dec. rewrite !digits_dlist. exact (dlist_step 38 v d V (pow_10_39 v H) D).
Qed.

Lemma dec_digit d : d < 10 -> dec d = [48 + d].
Proof.
  intros D. unfold dec. cbn [digits]. replace (d <? 10) with true by lia. now rewrite digit_char_10.
Qed.

(** two ways to write the same number without leading zeros *)
Lemma number_cons base x l : number base (x :: l) = x * base ^ N.of_nat (length l) + number base l.
Proof.
  induction l as [|y l IH] using rev_ind.
  - unfold number. cbn. lia.
  - rewrite app_comm_cons, number_app, IH, number_app, app_length. cbn [length].
    rewrite Nat.add_1_r, Nat2N.inj_succ, N.pow_succ_r'. lia.
Qed.

Lemma number_bound base l : 2 <= base -> Forall (fun d => d < base) l -> number base l < base ^ N.of_nat (length l).
Proof.
  intros B H. induction H as [|x l Hx Hl IH]; [reflexivity|].
  rewrite number_cons. cbn [length]. rewrite Nat2N.inj_succ, N.pow_succ_r'. nia.
Qed.

Lemma plain_decimal_inj s1 s2 v : plain_decimal s1 v -> plain_decimal s2 v -> s1 = s2.
Proof.
  intros ((l1 & N1 & F1 & E1 & V1) & Z1) ((l2 & N2 & F2 & E2 & V2) & Z2). subst s1 s2.
  f_equal. rewrite V1 in V2. clear V1 v.
  assert (P : forall l, l <> [] -> Forall (fun d => d < 10) l ->
     (hd 0 (map (fun d => 48 + d) l) = 48 -> map (fun d => 48 + d) l = [48]) ->
     l = [0] \/ (exists x l', l = x :: l' /\ 0 < x /\ 10 ^ N.of_nat (length l') <= number 10 l)).
  { intros l NE F Z. destruct l as [|x l]; [contradiction|]. cbn [map hd] in Z.
    destruct (N.eq_dec x 0) as [->|X].
    - left. specialize (Z eq_refl). destruct l; [reflexivity|discriminate].
    - right. exists x, l. split; auto. split; [lia|]. rewrite number_cons.
      pose proof (N.pow_nonzero 10 (N.of_nat (length l))). nia. }
  destruct (P l1 N1 F1 Z1) as [->|(x & l1' & -> & X & B1)]; destruct (P l2 N2 F2 Z2) as [->|(y & l2' & -> & Y & B2)]; auto.
  - exfalso. rewrite <- V2 in B2. change (number 10 [0]) with 0 in B2.
    pose proof (N.pow_nonzero 10 (N.of_nat (length l2'))). lia.
  - exfalso. rewrite V2 in B1. change (number 10 [0]) with 0 in B1.
    pose proof (N.pow_nonzero 10 (N.of_nat (length l1'))). lia.
  - assert (LN : length l1' = length l2').
    { pose proof (number_bound 10 _ ltac:(lia) F1) as U1. pose proof (number_bound 10 _ ltac:(lia) F2) as U2.
      cbn [length] in U1, U2. rewrite <- V2 in *.
      assert (G : forall a b, 10 ^ N.of_nat a < 10 ^ N.of_nat (S b) -> (a <= b)%nat).
      { intros a b Hab. apply N.pow_lt_mono_r_iff in Hab; lia. }
      apply Nat.le_antisymm; apply G; lia. }
    clear - V2 F1 F2 LN. assert (LL : length (x :: l1') = length (y :: l2')) by (cbn; lia).
    revert V2 F1 F2 LL. generalize (x :: l1') (y :: l2'). clear.
    induction l as [|a l IH]; intros [|b l2] E F1 F2 L; cbn in L; try lia; auto.
    inversion F1; inversion F2; subst. rewrite !number_cons in E. injection L as L. rewrite <- L in E.
    pose proof (number_bound 10 l ltac:(lia) H2). pose proof (number_bound 10 l2 ltac:(lia) H6).
    rewrite <- L in *. set (p := 10 ^ N.of_nat (length l)) in *.
    assert (a = b) by nia. subst b. f_equal. apply IH; auto. lia.
Qed.

(** * inet_pton4 reads exactly the dotted quads *)
Lemma is_digit_48 d : d < 10 -> is_digit (48 + d) = true.
Proof. unfold is_digit. intros. lia. Qed.

Lemma pton4_digits ds : forall v rest cur n, Forall (fun d => d < 10) ds -> v <> 0 ->
  fold_left (fun v d => v * 10 + d) ds v < 256 ->
  pton4_loop (map (fun d => 48 + d) ds ++ rest) cur v true n =
  pton4_loop rest cur (fold_left (fun v d => v * 10 + d) ds v) true n.
Proof.
  assert (G : forall ds v, v <= fold_left (fun v d => v * 10 + d) ds v).
  { clear. induction ds as [|d ds IH]; intros v; cbn; [lia|]. specialize (IH (v * 10 + d)). lia. }
  induction ds as [|d ds IH]; intros v rest cur n F V H; cbn [map app fold_left]; auto.
  inversion F; subst. cbn [fold_left] in H. cbn [pton4_loop]. rewrite is_digit_48 by auto.
  pose proof (G ds (v * 10 + d)).
  replace (v =? 0) with false by lia. cbn [andb]. replace (v * 10 + (48 + d - 48)) with (v * 10 + d) by lia.
  replace (255 <? v * 10 + d) with false by lia. rewrite IH; auto. lia.
Qed.

Lemma pton4_octet x rest cur n : x < 256 -> (n < 4)%nat ->
  pton4_loop (dec x ++ rest) cur 0 false n = pton4_loop rest cur x true (S n).
Proof.
  intros X Hn. assert (X' : x < 2 ^ 32) by lia.
  rewrite dec_dd by auto. destruct (dd_spec x X') as (V & F & E & Z).
  destruct (dd x) as [|d ds]; [contradiction|]. inversion F; subst. cbn [map app pton4_loop].
  rewrite is_digit_48 by auto. cbn [andb]. replace (0 * 10 + (48 + d - 48)) with d by lia.
  replace (255 <? d) with false by lia. replace (4 <? S n)%nat with false by lia.
  cbn [hd] in Z. destruct (N.eq_dec d 0) as [->|D].
  - specialize (Z eq_refl). injection Z as ->. cbn. reflexivity.
  - unfold number in *. cbn [fold_left] in *. change (0 * 10 + d) with d in *. now rewrite pton4_digits.
Qed.

Lemma pton4_ntop4 l : length l = 4%nat -> octets l -> pton4 (ntop4 l) = Some l.
Proof.
  intros L O. destruct l as [|a [|b [|c [|d [|]]]]]; cbn in L; try lia.
  inversion O as [|? ? Ha O1]; inversion O1 as [|? ? Hb O2]; inversion O2 as [|? ? Hc O3]; inversion O3 as [|? ? Hd O4]; subst.
  unfold octet_ok in *. unfold pton4, ntop4. cbn [nth].
  rewrite pton4_octet by (auto; lia). cbn [pton4_loop]. change (is_digit DOT) with false. cbn match. rewrite N.eqb_refl.
  cbn [andb Nat.eqb]. rewrite pton4_octet by (auto; lia). cbn [pton4_loop]. change (is_digit DOT) with false. cbn match. rewrite N.eqb_refl.
  cbn [andb Nat.eqb]. rewrite pton4_octet by (auto; lia). cbn [pton4_loop]. change (is_digit DOT) with false. cbn match. rewrite N.eqb_refl.
  cbn [andb Nat.eqb]. rewrite <- (app_nil_r (dec d)). rewrite pton4_octet by (auto; lia). reflexivity.
Qed.

(** the text consumed so far *)
Definition consumed (cur : list N) (v : N) (saw : bool) : cstr :=
  concat (map (fun x => dec x ++ [DOT]) cur) ++ (if saw then dec v else []).

Lemma pton4_loop_text s : forall cur v saw n l, pton4_loop s cur v saw n = Some l ->
  octets cur -> v < 256 -> (saw = false -> v = 0 /\ (n <= 3)%nat) ->
  n = (length cur + (if saw then 1 else 0))%nat -> (n <= 4)%nat ->
  length l = 4%nat /\ octets l /\ consumed cur v saw ++ s = ntop4 l.
Proof.
  induction s as [|c s IH]; intros cur v saw n l E O V S0 HN N4.
  - cbn [pton4_loop] in E. destruct (n <? 4)%nat eqn:Q; [discriminate|]. injection E as <-.
    destruct saw; [|destruct (S0 eq_refl); lia].
    assert (L : length cur = 3%nat) by lia.
    destruct cur as [|a [|b [|c [|]]]]; cbn in L; try lia.
    split; [reflexivity|]. split.
    + apply octets_app. split; auto. constructor; [exact V|constructor].
    + unfold consumed, ntop4. cbn [map concat app nth]. rewrite !app_nil_r, <- !app_assoc. reflexivity.
  - cbn [pton4_loop] in E. destruct (is_digit c) eqn:DG.
    + assert (C : c = 48 + (c - 48)) by (unfold is_digit in DG; lia).
      assert (D : c - 48 < 10) by (unfold is_digit in DG; lia).
      set (d := c - 48) in *. clearbody d. subst c.
      destruct (saw && (v =? 0)) eqn:SV; [discriminate|]. destruct (255 <? v * 10 + d) eqn:Q; [discriminate|].
      destruct saw.
      * cbn [andb] in SV. assert (V0 : v <> 0) by lia.
        destruct (IH _ _ _ _ _ E) as (A & B & C); auto; try lia; try discriminate.
        split; auto. split; auto. rewrite <- C. unfold consumed. rewrite dec_step by (auto; lia).
        rewrite <- !app_assoc. reflexivity.
      * destruct (S0 eq_refl) as [-> N3]. destruct (4 <? S n)%nat eqn:Q4; [discriminate|].
        destruct (IH _ _ _ _ _ E) as (A & B & C); auto; try lia; try discriminate.
        split; auto. split; auto. rewrite <- C. unfold consumed. change (0 * 10 + d) with d. rewrite dec_digit by auto.
        rewrite <- !app_assoc. reflexivity.
    + destruct ((c =? DOT) && saw) eqn:Q; [|discriminate]. apply andb_true_iff in Q as [Q1 ->].
      apply N.eqb_eq in Q1. subst c. destruct (n =? 4)%nat eqn:Q4; [discriminate|].
      destruct (IH _ _ _ _ _ E) as (A & B & C); auto; try lia.
      * apply octets_app. split; auto. constructor; [exact V|constructor].
      * rewrite app_length. cbn. lia.
      * split; auto. split; auto. rewrite <- C. unfold consumed. rewrite map_app, concat_app. cbn [map concat].
        rewrite <- !app_assoc. reflexivity.
Qed.

Lemma pton4_text s l : pton4 s = Some l -> length l = 4%nat /\ octets l /\ s = ntop4 l.
Proof.
  intros H. destruct (pton4_loop_text s [] 0 false 0 l H) as (A & B & C); auto; try lia. constructor.
Qed.

Lemma octets4 a b c d : octets [a; b; c; d] <-> a < 256 /\ b < 256 /\ c < 256 /\ d < 256.
Proof.
  unfold octets, octet_ok. split.
  - rewrite Forall_forall. intros H. repeat split; apply H; cbn; auto.
  - intros (?&?&?&?). repeat constructor; auto.
Qed.

Lemma quad_ntop4 s a b c d : quad s a b c d <-> octets [a; b; c; d] /\ s = ntop4 [a; b; c; d].
Proof.
  rewrite octets4. split.
  - intros (A & B & C & D & sa & sb & sc & sd & PA & PB & PC & PD & ->). split; auto.
    unfold ntop4. cbn [nth]. assert (P : forall s x, x < 256 -> plain_decimal s x -> s = dec x).
    { intros s x X P. eapply plain_decimal_inj; eauto. apply dec_plain. lia. }
    rewrite (P sa a), (P sb b), (P sc c), (P sd d) by auto. reflexivity.
  - intros ((A & B & C & D) & ->). split; auto. split; auto. split; auto. split; auto.
    exists (dec a), (dec b), (dec c), (dec d). repeat split; auto; try (apply dec_plain; lia).
Qed.

Lemma pton4_quad s l : pton4 s = Some l <-> exists a b c d, l = [a; b; c; d] /\ quad s a b c d.
Proof.
  split.
  - intros H. destruct (pton4_text s l H) as (L & O & ->).
    destruct l as [|a [|b [|c [|d [|]]]]]; cbn in L; try lia.
    exists a, b, c, d. split; auto. now apply quad_ntop4.
  - intros (a & b & c & d & -> & Q). apply quad_ntop4 in Q as [O ->]. now apply pton4_ntop4.
Qed.

(** * inet_pton6 reads what inet_ntop6 prints *)
Lemma hex_value_char d : d < 16 -> hex_value (digit_char d) = Some d.
Proof.
  intros H. unfold hex_value, digit_char, is_digit. destruct (N.ltb_spec d 10).
  - replace ((48 <=? 48 + d) && (48 + d <=? 57)) with true by lia. f_equal. lia.
  - replace ((48 <=? 87 + d) && (87 + d <=? 57)) with false by lia.
    replace ((97 <=? 87 + d) && (87 + d <=? 102)) with true by lia. f_equal. lia.
Qed.

Lemma pton6_digits ds : forall v seen rest tok tmp colon, Forall (fun d => d < 16) ds ->
  (seen + length ds <= 4)%nat -> fold_left (fun v d => v * 16 + d) ds v < 65536 ->
  pton6_loop (map digit_char ds ++ rest) tok tmp colon seen v =
  pton6_loop rest tok tmp colon (seen + length ds) (fold_left (fun v d => v * 16 + d) ds v).
Proof.
  assert (G : forall ds v, v <= fold_left (fun v d => v * 16 + d) ds v).
  { clear. induction ds as [|d ds IH]; intros v; cbn; [lia|]. specialize (IH (v * 16 + d)). lia. }
  induction ds as [|d ds IH]; intros v seen rest tok tmp colon F L H; cbn [map app fold_left length] in *.
  - now rewrite Nat.add_0_r.
  - inversion F; subst. cbn [pton6_loop]. rewrite hex_value_char by auto.
    pose proof (G ds (v * 16 + d)). replace (seen =? 4)%nat with false by lia.
    replace (65535 <? v * 16 + d) with false by lia. rewrite IH; auto; [|lia]. f_equal. lia.
Qed.

Definition hh (n : N) : list N := dlist 16 40 n.
Lemma pow_16_40 n : n < 65536 -> n < 16 ^ N.of_nat 40.
Proof. intros H. eapply N.lt_trans; [exact H|reflexivity]. Qed.
Lemma hh_spec n : n < 65536 ->
  number 16 (hh n) = n /\ Forall (fun d => d < 16) (hh n) /\ (1 <= length (hh n) <= 4)%nat.
Proof.
  intros H. destruct (dlist_spec 16 ltac:(lia) 39 n (pow_16_40 _ H)) as (A & B & C & _ & _). split; auto. split; auto.
  split.
  - unfold hh. destruct (dlist 16 40 n); [contradiction|cbn [length]; lia].
  - exact (dlist_short 16 3 39 n ltac:(lia) H ltac:(lia)).
Qed.
Lemma hex_hh n : hex n = map digit_char (hh n).
Proof. exact (digits_dlist 16 40 n). Qed.

Lemma pton6_hex w rest tok tmp colon : w < 65536 ->
  pton6_loop (hex w ++ rest) tok tmp colon 0 0 = pton6_loop rest tok tmp colon (length (hh w)) w.
Proof.
  intros H. rewrite hex_hh. destruct (hh_spec w H) as (V & F & L).
  rewrite pton6_digits; auto; try lia.
  - f_equal. exact V.
  - fold (number 16 (hh w)). lia.
Qed.

(** the two octets of a word *)
Definition octs (w : N) : list N := [w / 256 mod 256; w mod 256].

Lemma pton6_group w rest tok tmp colon : w < 65536 -> rest <> [] -> (length tmp <= 14)%nat ->
  pton6_loop (hex w ++ COLON :: rest) tok tmp colon 0 0 = pton6_loop rest rest (tmp ++ octs w) colon 0 0.
Proof.
  intros H R L. rewrite pton6_hex by auto. destruct (hh_spec w H) as (_ & _ & Q).
  cbn [pton6_loop]. change (hex_value COLON) with (@None N). cbn match. rewrite N.eqb_refl.
  replace (length (hh w) =? 0)%nat with false by lia. destruct rest; [contradiction|].
  now replace (16 <? length tmp + 2)%nat with false by lia.
Qed.

Lemma pton6_last w tok tmp colon : w < 65536 -> (length tmp <= 14)%nat ->
  pton6_loop (hex w) tok tmp colon 0 0 = pton6_end (tmp ++ octs w) colon 0 0.
Proof.
  intros H L. rewrite <- (app_nil_r (hex w)). rewrite pton6_hex by auto. destruct (hh_spec w H) as (_ & _ & Q).
  cbn [pton6_loop]. unfold pton6_end. replace (0 <? length (hh w))%nat with true by lia.
  replace (16 <? length tmp + 2)%nat with false by lia. reflexivity.
Qed.

Lemma pton6_colon rest tok tmp : 
  pton6_loop (COLON :: rest) tok tmp None 0 0 = pton6_loop rest rest tmp (Some (length tmp)) 0 0.
Proof. reflexivity. Qed.

(** digits of an octet are short hexadecimal numbers as well *)
Lemma dd_short x : x < 256 -> (length (dd x) <= 3)%nat.
Proof. intros H. apply (dlist_short 10 2 39 x); lia. Qed.

Lemma pton6_dec x rest tok tmp colon : x < 256 ->
  exists seen v, pton6_loop (dec x ++ rest) tok tmp colon 0 0 = pton6_loop rest tok tmp colon seen v.
Proof.
  intros H. assert (H' : x < 2 ^ 32) by lia. unfold dec. rewrite digits_dlist. fold (dd x).
  destruct (dd_spec x H') as (_ & F & _). pose proof (dd_short x H) as L.
  assert (F' : Forall (fun d => d < 16) (dd x)) by (eapply Forall_impl; [|exact F]; cbn; lia).
  do 2 eexists. apply pton6_digits; auto.
  fold (number 16 (dd x)). pose proof (number_bound 16 _ ltac:(lia) F') as B.
  eapply N.lt_le_trans; [exact B|]. transitivity (16 ^ 3); [|lia]. apply N.pow_le_mono_r; lia.
Qed.

Lemma pton6_quad l tmp colon : length l = 4%nat -> octets l -> (length tmp <= 12)%nat ->
  exists v, pton6_loop (ntop4 l) (ntop4 l) tmp colon 0 0 = pton6_end (tmp ++ l) colon 0 v.
Proof.
  intros L O T. pose proof (pton4_ntop4 l L O) as P.
  assert (E : exists rest, ntop4 l = dec (nth 0 l 0) ++ DOT :: rest) by (eexists; reflexivity).
  revert P E. generalize (ntop4 l). intros tok P [rest E].
  enough (Q : exists v, pton6_loop (dec (nth 0 l 0) ++ DOT :: rest) tok tmp colon 0 0 = pton6_end (tmp ++ l) colon 0 v)
    by now rewrite <- E in Q.
  destruct (pton6_dec (nth 0 l 0) (DOT :: rest) tok tmp colon) as (seen & v & Q).
  { destruct l; [discriminate|]. inversion O; auto. }
  rewrite Q. cbn [pton6_loop]. change (hex_value DOT) with (@None N). cbn match.
  change (DOT =? COLON) with false. cbn match. rewrite N.eqb_refl.
  replace (length tmp + 4 <=? 16)%nat with true by lia. cbn [andb]. rewrite P. eauto.
Qed.

(** the run found consists of zero words *)
Definition okrun (ws : list N) (r : option (nat * nat)) : Prop :=
  match r with
  | None => True
  | Some (b, l) => (b + l <= length ws)%nat /\ forall i, (b <= i < b + l)%nat -> nth i ws 0 = 0
  end.

Lemma keep_ok ws b c : okrun ws b -> okrun ws c -> okrun ws (keep b c).
Proof.
  intros B C. unfold keep. destruct c as [[cb cl]|]; auto. destruct b as [[bb bl]|]; auto.
  destruct (bl <? cl)%nat; auto.
Qed.

Lemma runs_ok ws : forall l i best cur, skipn i ws = l -> (i <= length ws)%nat ->
  okrun ws best -> okrun ws cur -> (forall b n, cur = Some (b, n) -> (b + n = i)%nat) ->
  okrun ws (runs l i best cur).
Proof.
  induction l as [|w l IH]; intros i best cur E LI B C A.
  - now apply keep_ok.
  - assert (LI' : (i < length ws)%nat).
    { destruct (Nat.lt_ge_cases i (length ws)); auto. rewrite skipn_all2 in E by lia. discriminate. }
    assert (W : nth i ws 0 = w).
    { rewrite <- (firstn_skipn i ws), app_nth2; rewrite firstn_length; [|lia]. rewrite E.
      now replace (i - Nat.min i (length ws))%nat with 0%nat by lia. }
    assert (E' : skipn (S i) ws = l).
    { replace (S i) with (1 + i)%nat by lia. rewrite <- (skipn_skipn' 1 i), E. reflexivity. }
    cbn [runs]. destruct (N.eqb_spec w 0) as [Z|Z].
    + apply IH; auto; try lia.
      * destruct cur as [[cb cl]|].
        -- specialize (A _ _ eq_refl). destruct C as [C1 C2]. split; [lia|]. intros j J.
           destruct (Nat.eq_dec j i); [subst; auto|]. apply C2. lia.
        -- split; [lia|]. intros j J. replace j with i by lia. congruence.
      * intros b n. destruct cur as [[cb cl]|]; intros Q; injection Q as <- <-; [|lia].
        specialize (A _ _ eq_refl). lia.
    + apply IH; auto; try lia.
      * now apply keep_ok.
      * exact I.
      * discriminate.
Qed.

Lemma best_run_ok ws : okrun ws (best_run ws) /\ (forall b l, best_run ws = Some (b, l) -> (2 <= l)%nat).
Proof.
  pose proof (runs_ok ws ws 0 None None eq_refl ltac:(lia) I I ltac:(discriminate)) as R.
  unfold best_run. destruct (runs ws 0 None None) as [[b l]|].
  - destruct (l <? 2)%nat eqn:Q; [split; [exact I|discriminate]|]. split; auto. intros ? ? E. injection E as <- <-. lia.
  - split; [exact I|discriminate].
Qed.
