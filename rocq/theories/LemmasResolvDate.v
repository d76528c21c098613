(** strptime and timegm on dates in the format of the TXT record. *)
From Coq Require Import String.
From Coq Require Import NArith ZArith List Bool Arith Lia ZifyBool ZifyNat ZifyN.
From Verif Require Import Base LemmasBase ModelCountryCode ModelText SpecText ModelResolv SpecResolv.
Import ListNotations.
Open Scope N_scope.

Lemma match_weekday w r : In w day_names -> exists i, match_names weekdays 0 (w ++ 44 :: r) = Some (i, 44 :: r).
Proof.
  intros H. cbn [In day_names map] in H.
  repeat (destruct H as [<-|H]; [eexists; reflexivity|]). contradiction.
Qed.

Lemma match_month m r : 1 <= m <= 12 ->
  match_names months 0 (nth (N.to_nat (m - 1)) month_names [] ++ 32 :: r) = Some (m - 1, 32 :: r).
Proof.
  intros H.
  assert (C : m = 1 \/ m = 2 \/ m = 3 \/ m = 4 \/ m = 5 \/ m = 6 \/ m = 7 \/ m = 8 \/ m = 9 \/ m = 10 \/ m = 11 \/ m = 12) by lia.
  repeat (destruct C as [->|C]; [reflexivity|]). subst. reflexivity.
Qed.

Lemma div10 v b : v < 10 * b -> v / 10 < b.
Proof. intros H. apply N.div_lt_upper_bound; lia. Qed.
Lemma mod10 v : v mod 10 < 10.
Proof. apply N.mod_lt. lia. Qed.

Lemma digit_is v : v < 10 -> is_digit (48 + v) = true /\ isspace (48 + v) = false.
Proof. intros H. unfold is_digit, isspace. split; lia. Qed.

Lemma get_number2 from to v r : from <= v <= to -> v < 100 ->
  get_number from to 2 (digit2 v ++ r) = Some (v, r).
Proof.
  intros H B. pose proof (div10 v 10 ltac:(lia)) as D. pose proof (mod10 v) as M. pose proof (N.div_mod v 10 ltac:(lia)) as E.
  unfold get_number, digit2. cbn [app spaces]. destruct (digit_is _ D) as [D1 D2]. destruct (digit_is _ M) as [M1 M2].
  rewrite D2, D1. cbn [Nat.sub number_loop].
  rewrite M1. replace (48 + v / 10 - 48) with (v / 10) by lia. replace (v / 10 * 10 <=? to) with true by lia. cbn [andb].
  replace (v / 10 * 10 + (48 + v mod 10 - 48)) with v by lia.
  replace ((from <=? v) && (v <=? to)) with true by lia. reflexivity.
Qed.

Lemma digit4_value v : v <= 9999 -> v = ((v / 1000 * 10 + v / 100 mod 10) * 10 + v / 10 mod 10) * 10 + v mod 10.
Proof.
  intros H. pose proof (N.div_mod v 10 ltac:(lia)). pose proof (N.div_mod (v / 10) 10 ltac:(lia)).
  pose proof (N.div_mod (v / 100) 10 ltac:(lia)).
  rewrite N.div_div in * by lia. change (10 * 10) with 100 in *. change (100 * 10) with 1000 in *. lia.
Qed.

Lemma get_number4 v r : v <= 9999 -> get_number 0 9999 4 (digit4 v ++ r) = Some (v, r).
Proof.
  intros H. pose proof (digit4_value v H) as E.
  assert (A : v / 1000 < 10) by (apply N.div_lt_upper_bound; lia).
  pose proof (mod10 (v / 100)) as B. pose proof (mod10 (v / 10)) as C. pose proof (mod10 v) as D.
  unfold get_number, digit4. cbn [app spaces].
  destruct (digit_is _ A) as [A1 A2]. destruct (digit_is _ B) as [B1 B2].
  destruct (digit_is _ C) as [C1 C2]. destruct (digit_is _ D) as [D1 D2].
  rewrite A2, A1. cbn [Nat.sub number_loop].
  set (a := v / 1000) in *. set (b := v / 100 mod 10) in *. set (c := v / 10 mod 10) in *. set (d := v mod 10) in *.
  replace (48 + a - 48) with a by lia. replace (48 + b - 48) with b by lia.
  replace (48 + c - 48) with c by lia. replace (48 + d - 48) with d by lia.
  rewrite B1, C1, D1. replace (a * 10 <=? 9999) with true by lia. cbn [andb].
  replace ((a * 10 + b) * 10 <=? 9999) with true by lia. cbn [andb].
  replace (((a * 10 + b) * 10 + c) * 10 <=? 9999) with true by lia. cbn [andb].
  rewrite <- E. replace ((0 <=? v) && (v <=? 9999)) with true by lia. reflexivity.
Qed.

Lemma spaces_digit2 v r : v < 100 -> spaces (32 :: digit2 v ++ r) = digit2 v ++ r.
Proof.
  intros H. unfold digit2. cbn [spaces app]. change (isspace 32) with true. cbn iota.
  destruct (digit_is _ (div10 v 10 ltac:(lia))) as [_ ->]. reflexivity.
Qed.

Lemma spaces_digit4 v r : v <= 9999 -> spaces (32 :: digit4 v ++ r) = digit4 v ++ r.
Proof.
  intros H. unfold digit4. cbn [spaces app]. change (isspace 32) with true. cbn iota.
  assert (A : v / 1000 < 10) by (apply N.div_lt_upper_bound; lia).
  destruct (digit_is _ A) as [_ ->]. reflexivity.
Qed.

Lemma spaces_month m r : 1 <= m <= 12 -> spaces (32 :: nth (N.to_nat (m - 1)) month_names [] ++ r) =
  nth (N.to_nat (m - 1)) month_names [] ++ r.
Proof.
  intros H.
  assert (C : m = 1 \/ m = 2 \/ m = 3 \/ m = 4 \/ m = 5 \/ m = 6 \/ m = 7 \/ m = 8 \/ m = 9 \/ m = 10 \/ m = 11 \/ m = 12) by lia.
  repeat (destruct C as [->|C]; [reflexivity|]). subst. reflexivity.
Qed.

Lemma month_days y m : 1 <= m <= 12 -> nth (N.to_nat (m - 1)) (month_lengths y) 0 <= 31.
Proof.
  intros H.
  assert (C : m = 1 \/ m = 2 \/ m = 3 \/ m = 4 \/ m = 5 \/ m = 6 \/ m = 7 \/ m = 8 \/ m = 9 \/ m = 10 \/ m = 11 \/ m = 12) by lia.
  unfold month_lengths. destruct (leap y); repeat (destruct C as [->|C]; [vm_compute; discriminate|]); subst; vm_compute; discriminate.
Qed.

Lemma match_char1 c r : match_chars [c] (c :: r) = Some r.
Proof. cbn. now rewrite N.eqb_refl. Qed.

Lemma strptime_date w y m d h mi s : In w day_names -> valid_date y m d h mi s ->
  strptime (date_text w y m d h mi s) = Some (mkTm s mi h d (m - 1) (Z.of_N y - 1900), []).
Proof.
  intros W (Y & M & D & H & MI & SS). pose proof (month_days y m M) as ML. unfold strptime, date_text.
  change (txt ", ") with [44; 32]. change (txt " ") with [32]. change (txt ":") with [58].
  cbn [app]. destruct (match_weekday w (32 :: digit2 d ++ 32 :: nth (N.to_nat (m - 1)) month_names [] ++
    32 :: digit4 y ++ 32 :: digit2 h ++ 58 :: digit2 mi ++ 58 :: digit2 s ++ txt " GMT") W) as (i & ->).
  cbn [obind]. change (txt ",") with [44]. rewrite match_char1. cbn [obind].
  rewrite spaces_digit2, get_number2 by lia. cbn [obind].
  rewrite spaces_month, match_month by lia. cbn [obind].
  rewrite spaces_digit4, get_number4 by lia. cbn [obind].
  rewrite spaces_digit2, get_number2 by lia. cbn [obind].
  rewrite match_char1. cbn [obind]. rewrite get_number2 by lia. cbn [obind].
  rewrite match_char1. cbn [obind]. rewrite get_number2 by lia. reflexivity.
Qed.

(** ** timegm *)
Ltac Zify.zify_post_hook ::= Z.div_mod_to_equations.

Lemma leap_year_days y : Z.of_N (sum (month_lengths y)) = (if leap y then 366 else 365)%Z.
Proof. unfold month_lengths. now destruct (leap y). Qed.

Definition leaps (y : Z) : Z := ((y + 3) / 4 - (y + 99) / 100 + (y + 399) / 400)%Z.

Lemma leaps_step y : (0 <= y)%Z -> (leaps (y + 1) = leaps y + (if leap (Z.to_N y) then 1 else 0))%Z.
Proof.
  intros H.
  assert (A : ((y + 1 + 3) / 4 = (y + 3) / 4 + (if y mod 4 =? 0 then 1 else 0))%Z) by (destruct (y mod 4 =? 0)%Z eqn:E; lia).
  assert (B : ((y + 1 + 99) / 100 = (y + 99) / 100 + (if y mod 100 =? 0 then 1 else 0))%Z)
    by (destruct (y mod 100 =? 0)%Z eqn:E; lia).
  assert (C : ((y + 1 + 399) / 400 = (y + 399) / 400 + (if y mod 400 =? 0 then 1 else 0))%Z)
    by (destruct (y mod 400 =? 0)%Z eqn:E; lia).
  unfold leaps. rewrite A, B, C. clear A B C.
  assert (L : leap (Z.to_N y) = ((y mod 4 =? 0) && negb (y mod 100 =? 0) || (y mod 400 =? 0))%Z).
  { unfold leap. f_equal; [f_equal; [|f_equal]|]; lia. }
  rewrite L. destruct (y mod 4 =? 0)%Z eqn:E4, (y mod 100 =? 0)%Z eqn:E1, (y mod 400 =? 0)%Z eqn:E3; cbn [andb negb orb]; lia.
Qed.

Lemma days_before_eq y : Z.of_N (days_before y) = (365 * Z.of_nat y + leaps (Z.of_nat y))%Z.
Proof.
  induction y as [|y IH]; [reflexivity|]. cbn [days_before]. rewrite N2Z.inj_add, IH, leap_year_days.
  rewrite Nat2Z.inj_succ. unfold Z.succ. rewrite leaps_step by lia. replace (Z.to_N (Z.of_nat y)) with (N.of_nat y) by lia.
  destruct (leap (N.of_nat y)); lia.
Qed.

Lemma leapyear_eq y : leapyear (Z.of_N y) = leap y.
Proof.
  assert (L : leap y = ((Z.of_N y mod 4 =? 0) && negb (Z.of_N y mod 100 =? 0) || (Z.of_N y mod 400 =? 0))%Z).
  { unfold leap. f_equal; [f_equal; [|f_equal]|]; lia. }
  rewrite L. unfold leapyear. generalize (Z.of_N y). intros z.
  destruct (z mod 4 =? 0)%Z eqn:E4, (z mod 100 =? 0)%Z eqn:E1, (z mod 400 =? 0)%Z eqn:E3; cbn [andb negb orb]; lia.
Qed.

Lemma month_start y m : 1 <= m <= 12 ->
  Z.of_N (sum (firstn (N.to_nat (m - 1)) (month_lengths y))) = nth (N.to_nat (m - 1)) (mon_yday (leap y)) 0%Z.
Proof.
  intros H.
  assert (C : m = 1 \/ m = 2 \/ m = 3 \/ m = 4 \/ m = 5 \/ m = 6 \/ m = 7 \/ m = 8 \/ m = 9 \/ m = 10 \/ m = 11 \/ m = 12) by lia.
  unfold month_lengths. destruct (leap y); repeat (destruct C as [->|C]; [reflexivity|]); subst; reflexivity.
Qed.

Lemma floor25 a : (Z.quot (a + (if a <? 0 then 1 else 0)) 25 - (if a <? 0 then 1 else 0) = a / 25)%Z.
Proof.
  destruct (a <? 0)%Z eqn:E.
  - pose proof (Z.quot_opp_l (a + 1) 25 ltac:(lia)) as Q.
    rewrite (Z.quot_div_nonneg (- (a + 1)) 25) in Q by lia. lia.
  - rewrite Z.quot_div_nonneg by lia. lia.
Qed.

Lemma timegm_eq y m d h mi s : 1 <= m <= 12 -> 1 <= d ->
  timegm (mkTm s mi h d (m - 1) (Z.of_N y - 1900)) = seconds_since_epoch y m d h mi s.
Proof.
  intros M D. unfold timegm, seconds_since_epoch. cbn [tm_sec tm_min tm_hour tm_mday tm_mon tm_year].
  replace (Z.of_N y - 1900 + 1900)%Z with (Z.of_N y) by lia. rewrite leapyear_eq, !floor25.
  rewrite !days_before_eq, N2Z.inj_add, month_start by auto.
  rewrite N2Z.inj_sub by lia. rewrite !N_nat_Z. change (leaps (Z.of_N 1970)) with 478%Z.
  generalize (nth (N.to_nat (m - 1)) (mon_yday (leap y)) 0%Z). intros yd.
  assert (L : (leaps (Z.of_N y) = let a4 := (Z.of_N y - 1900) / 4 + 475 - (if ((Z.of_N y - 1900) mod 4 =? 0) then 1 else 0) in
     (a4 + 1) - (a4 / 25 + 1) + (a4 / 25 / 4 + 1))%Z).
  { cbv zeta. unfold leaps. generalize (Z.of_N y). intros z.
    assert (A : ((z - 1900) / 4 + 475 - (if ((z - 1900) mod 4 =? 0) then 1 else 0) = (z - 1) / 4)%Z)
      by (destruct ((z - 1900) mod 4 =? 0)%Z eqn:E; lia).
    rewrite A, !Zdiv_Zdiv by lia. change (4 * 25)%Z with 100%Z. change (100 * 4)%Z with 400%Z.
    replace ((z + 3) / 4)%Z with ((z - 1) / 4 + 1)%Z by lia.
    replace ((z + 99) / 100)%Z with ((z - 1) / 100 + 1)%Z by lia.
    replace ((z + 399) / 400)%Z with ((z - 1) / 400 + 1)%Z by lia. reflexivity. }
  cbv zeta in L. rewrite L. change ((70 / 4 + 475 - 0) / 25 / 4)%Z with 4%Z. change ((70 / 4 + 475 - 0) / 25)%Z with 19%Z.
  change (70 / 4 + 475 - 0)%Z with 492%Z. change (Z.of_N 1)%Z with 1%Z. change (Z.of_N 1970) with 1970%Z. clear L.
  generalize ((Z.of_N y - 1900) / 4 + 475 - (if ((Z.of_N y - 1900) mod 4 =? 0) then 1 else 0))%Z.
  intros a. generalize (a / 25 / 4)%Z (a / 25)%Z. intros. lia.
Qed.

Lemma parse_date w y m d h mi s : In w day_names -> valid_date y m d h mi s ->
  parse_timestamp (date_text w y m d h mi s) = (seconds_since_epoch y m d h mi s, 0%Z).
Proof.
  intros W V. unfold parse_timestamp. rewrite strptime_date by auto. destruct V as (_ & M & D & _). now rewrite timegm_eq.
Qed.
Ltac Zify.zify_post_hook ::= idtac.

(** ** What is accepted *)
Lemma spaces_split s : exists b, s = b ++ spaces s /\ blanks b.
Proof.
  induction s as [|c s (b & E & B)]; [exists []; split; [reflexivity|constructor]|]. cbn [spaces].
  destruct (isspace c) eqn:W; [|exists []; split; [reflexivity|constructor]].
  exists (c :: b). split; [cbn [app]; now rewrite <- E|]. constructor; auto. unfold isspace in W. lia.
Qed.

Lemma blanks_app a b : blanks a -> blanks b -> blanks (a ++ b).
Proof. intros A B. now apply Forall_app. Qed.

Lemma match_string_split name : forall s r, match_string name s = Some r ->
  exists p, s = p ++ r /\ map lowered p = map lowered name.
Proof.
  induction name as [|a name IH]; intros s r H; [injection H as <-; now exists []|].
  destruct s as [|c s]; [discriminate|]. cbn [match_string] in H. destruct (lower a =? lower c) eqn:E; [|discriminate].
  destruct (IH _ _ H) as (p & -> & P). exists (c :: p). split; [reflexivity|]. cbn [map]. rewrite P. f_equal.
  apply N.eqb_eq in E. symmetry. exact E.
Qed.

Lemma match_names_split names : forall i s j r, match_names names i s = Some (j, r) ->
  exists k p, j = i + N.of_nat k /\ s = p ++ r /\ is_name names k p.
Proof.
  induction names as [|x names IH]; intros i s j r H; [discriminate|]. cbn [match_names] in H.
  destruct (match_string x s) as [q|] eqn:E.
  - injection H as <- <-. destruct (match_string_split _ _ _ E) as (p & A & B). exists 0%nat, p.
    split; [lia|]. split; [exact A|]. split; [cbn [length]; lia|]. left. exact B.
  - destruct (match_string (firstn 3 x) s) as [q|] eqn:E'.
    + injection H as <- <-. destruct (match_string_split _ _ _ E') as (p & A & B). exists 0%nat, p.
      split; [lia|]. split; [exact A|]. split; [cbn [length]; lia|]. right. exact B.
    + destruct (IH _ _ _ _ H) as (k & p & -> & A & L & B). exists (S k), p.
      split; [lia|]. split; [exact A|]. split; [cbn [length]; lia|]. exact B.
Qed.

Lemma match_chars_split f : forall s r, match_chars f s = Some r -> s = f ++ r.
Proof.
  induction f as [|a f IH]; intros s r H; [now injection H as <-|]. destruct s as [|c s]; [discriminate|].
  cbn [match_chars] in H. destruct (a =? c) eqn:E; [|discriminate]. apply N.eqb_eq in E. subst c. cbn [app]. f_equal. auto.
Qed.

Lemma number_app base a x : number base (a ++ [x]) = number base a * base + x.
Proof. unfold number. now rewrite fold_left_app. Qed.

Lemma number_loop_split to n : forall pre v s v' r, number_loop to n v s = (v', r) ->
  Forall (fun d => d < 10) pre -> v = number 10 pre ->
  exists ds, s = map (fun d => 48 + d) ds ++ r /\ Forall (fun d => d < 10) (pre ++ ds) /\ (length ds <= n)%nat /\
    v' = number 10 (pre ++ ds).
Proof.
  induction n as [|n IH]; intros pre v s v' r H F E.
  - exists []. destruct s; cbn in H; injection H as <- <-; cbn [length map app]; rewrite ?app_nil_r; repeat split; auto.
  - destruct s as [|c s]; cbn [number_loop] in H; [injection H as <- <-; exists []; cbn [length map app]; rewrite ?app_nil_r; repeat split; auto with arith|].
    destruct ((v * 10 <=? to) && is_digit c) eqn:T; [|injection H as <- <-; exists []; cbn [length map app]; rewrite ?app_nil_r; repeat split; auto with arith].
    assert (D : is_digit c = true) by (destruct (v * 10 <=? to); [exact T|discriminate]). unfold is_digit in D.
    destruct (IH (pre ++ [c - 48]) _ _ _ _ H) as (ds & A & B & L & V).
    + apply Forall_app. split; auto. constructor; [lia|constructor].
    + rewrite number_app, <- E. reflexivity.
    + exists (c - 48 :: ds). rewrite <- app_assoc in B, V. cbn [app] in B, V. split; [|split; [exact B|split; [cbn [length]; lia|exact V]]].
      cbn [map app]. f_equal; [lia|exact A].
Qed.

Lemma get_number_split lo hi n s v r : get_number lo hi (S n) s = Some (v, r) ->
  exists p, s = p ++ r /\ is_field p lo hi (S n) v.
Proof.
  unfold get_number. destruct (spaces_split s) as (b & E & B). destruct (spaces s) as [|c s'] eqn:Sp; [discriminate|].
  destruct (is_digit c) eqn:D; [|discriminate]. replace (S n - 1)%nat with n by lia.
  destruct (number_loop hi n (c - 48) s') as [v' r'] eqn:L. destruct ((lo <=? v') && (v' <=? hi)) eqn:R; [|discriminate].
  intros H. injection H as <- <-. unfold is_digit in D.
  destruct (number_loop_split _ _ [c - 48] _ _ _ _ L) as (ds & A & F & N & V); [constructor; [lia|constructor]|reflexivity|].
  exists (b ++ c :: map (fun d => 48 + d) ds). split; [rewrite E, A, <- app_assoc; reflexivity|].
  exists b, (c :: map (fun d => 48 + d) ds). split; [reflexivity|]. split; [exact B|]. split.
  - exists (c - 48 :: ds). split; [discriminate|]. split; [exact F|]. split; [|exact V]. cbn [map]. f_equal. lia.
  - split; [cbn [length]; rewrite map_length; lia|lia].
Qed.

Lemma spaced_field s lo hi n v r : get_number lo hi (S n) (spaces s) = Some (v, r) ->
  exists p, s = p ++ r /\ is_field p lo hi (S n) v.
Proof.
  intros H. destruct (get_number_split _ _ _ _ _ _ H) as (p & E & b & ds & -> & B & Q).
  destruct (spaces_split s) as (b0 & E0 & B0). exists (b0 ++ b ++ ds). split; [rewrite E0, E; now rewrite <- !app_assoc|].
  exists (b0 ++ b), ds. split; [now rewrite app_assoc|]. split; [now apply blanks_app|exact Q].
Qed.

Lemma strptime_like t ts r : strptime t = Some (ts, r) ->
  exists u y m d h mi s, t = u ++ r /\ date_like u y m d h mi s /\ ts = mkTm s mi h d (m - 1) (Z.of_N y - 1900) /\ m <= 12.
Proof.
  unfold strptime. intros H.
  destruct (match_names weekdays 0 t) as [[i s1]|] eqn:E1; [|discriminate]. cbn [obind] in H.
  destruct (match_chars (txt ",") s1) as [s2|] eqn:E2; [|discriminate]. cbn [obind] in H.
  destruct (get_number 1 31 2 (spaces s2)) as [[d s3]|] eqn:E3; [|discriminate]. cbn [obind] in H.
  destruct (match_names months 0 (spaces s3)) as [[mo s4]|] eqn:E4; [|discriminate]. cbn [obind] in H.
  destruct (get_number 0 9999 4 (spaces s4)) as [[y s5]|] eqn:E5; [|discriminate]. cbn [obind] in H.
  destruct (get_number 0 23 2 (spaces s5)) as [[h s6]|] eqn:E6; [|discriminate]. cbn [obind] in H.
  destruct (match_chars (txt ":") s6) as [s7|] eqn:E7; [|discriminate]. cbn [obind] in H.
  destruct (get_number 0 59 2 s7) as [[mi s8]|] eqn:E8; [|discriminate]. cbn [obind] in H.
  destruct (match_chars (txt ":") s8) as [s9|] eqn:E9; [|discriminate]. cbn [obind] in H.
  destruct (get_number 0 61 2 s9) as [[se s10]|] eqn:E10; [|discriminate]. cbn [obind] in H.
  destruct (match_chars (txt "GMT") (spaces s10)) as [s11|] eqn:E11; [|discriminate]. cbn [obind] in H.
  injection H as <- <-.
  destruct (match_names_split _ _ _ _ _ E1) as (k & w & _ & -> & W).
  apply match_chars_split in E2. subst s1.
  destruct (spaced_field _ _ _ _ _ _ E3) as (dd & -> & D).
  destruct (match_names_split _ _ _ _ _ E4) as (k' & mm & -> & A4 & M).
  destruct (spaces_split s3) as (b & A3 & B). rewrite A4 in A3. subst s3.
  destruct (spaced_field _ _ _ _ _ _ E5) as (yy & -> & Y).
  destruct (spaced_field _ _ _ _ _ _ E6) as (hh & -> & Hh).
  apply match_chars_split in E7. subst s6.
  destruct (get_number_split _ _ _ _ _ _ E8) as (nn & -> & Mi).
  apply match_chars_split in E9. subst s8.
  destruct (get_number_split _ _ _ _ _ _ E10) as (ss & -> & Se).
  destruct (spaces_split s10) as (b' & A10 & B'). apply match_chars_split in E11. rewrite E11 in A10. subst s10.
  pose proof (proj1 M) as ML. change (length months) with 12%nat in ML.
  exists (w ++ [44] ++ dd ++ b ++ mm ++ yy ++ hh ++ [58] ++ nn ++ [58] ++ ss ++ b' ++ txt "GMT"), y, (N.of_nat k' + 1), d, h, mi, se.
  split; [change (txt ",") with [44]; change (txt ":") with [58]; now rewrite <- !app_assoc|].
  split; [|split; [f_equal; lia|lia]].
  exists w, dd, b, mm, yy, hh, nn, ss, b'. split; [reflexivity|]. split; [now exists k|]. split; [exact D|]. split; [exact B|].
  split; [lia|]. replace (N.to_nat (N.of_nat k' + 1 - 1)) with k' by lia. repeat (split; [assumption|]). assumption.
Qed.

Lemma parse_accepts t v : parse_timestamp t = (v, 0%Z) ->
  exists y m d h mi s, date_like t y m d h mi s /\ v = seconds_since_epoch y m d h mi s.
Proof.
  unfold parse_timestamp. destruct (strptime t) as [[ts [|c r]]|] eqn:E; [|discriminate|discriminate].
  intros H. injection H as <-. destruct (strptime_like _ _ _ E) as (u & y & m & d & h & mi & s & -> & L & -> & M).
  rewrite app_nil_r. exists y, m, d, h, mi, s. split; [exact L|]. apply timegm_eq.
  - destruct L as (? & ? & ? & ? & ? & ? & ? & ? & ? & _ & _ & _ & _ & ? & _). lia.
  - destruct L as (? & ? & ? & ? & ? & ? & ? & ? & ? & _ & _ & (? & ? & _ & _ & _ & _ & ?) & _). lia.
Qed.
