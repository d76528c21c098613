(** gmtime is the inverse of the seconds since the epoch. *)
From Coq Require Import String.
From Coq Require Import NArith ZArith List Bool Arith Lia ZifyBool ZifyNat ZifyN.
From Verif Require Import Base ModelCountryCode ModelText SpecText ModelResolv SpecResolv LemmasResolv LemmasResolvDate LemmasResolvReply ModelUpdate SpecUpdate.
Import ListNotations.
Open Scope Z_scope.

Lemma thru_leaps y : leaps_thru_end_of (y - 1) = leaps y - 1.
Proof.
  unfold leaps_thru_end_of, leaps.
  replace (y + 3) with (y - 1 + 1 * 4) by lia. replace (y + 99) with (y - 1 + 1 * 100) by lia. replace (y + 399) with (y - 1 + 1 * 400) by lia.
  rewrite !Z.div_add by lia. lia.
Qed.

Lemma leaps_len y : 0 <= y -> leaps (y + 1) = leaps y + (if leapyear y then 1 else 0).
Proof. intros H. rewrite leaps_step by auto. rewrite <- leapyear_eq, Z2N.id by auto. reflexivity. Qed.

Lemma leaps_mono y k : 0 <= y -> leaps y <= leaps (y + Z.of_nat k).
Proof.
  intros H. induction k as [|k IH]; [rewrite Z.add_0_r; lia|].
  replace (y + Z.of_nat (S k)) with (y + Z.of_nat k + 1) by lia. rewrite leaps_len by lia. destruct (leapyear _); lia.
Qed.

Lemma div_more a b k : 0 < b -> 0 <= k -> (a + k) / b <= a / b + k / b + 1.
Proof.
  intros B K. pose proof (Z.div_mod a b ltac:(lia)) as E1. pose proof (Z.div_mod k b ltac:(lia)) as E2.
  pose proof (Z.mod_pos_bound a b B). pose proof (Z.mod_pos_bound k b B).
  assert ((a + k) / b < a / b + k / b + 2); [|lia]. apply Z.div_lt_upper_bound; auto.
  replace (b * (a / b + k / b + 2)) with (b * (a / b) + b * (k / b) + 2 * b) by ring. lia.
Qed.

Lemma centuries a k : 0 <= k -> (a + k + 300) / 400 - (a + 300) / 400 <= (a + k) / 100 - a / 100.
Proof.
  intros K.
  assert (E : forall x, (x + 300) / 400 = (x / 100 + 3) / 4).
  { intros x. replace (x / 100 + 3) with ((x + 3 * 100) / 100) by now rewrite Z.div_add by lia.
    rewrite Z.div_div by lia. reflexivity. }
  rewrite !E. assert (a / 100 <= (a + k) / 100) by (apply Z.div_le_mono; lia).
  set (u := a / 100) in *. set (v := (a + k) / 100) in *. clearbody u v. lia.
Qed.

Lemma leaps_most y k : 0 <= k -> leaps (y + k) - leaps y <= k / 4 + 1.
Proof.
  intros K. unfold leaps. pose proof (div_more (y + 3) 4 k ltac:(lia) K) as A. pose proof (centuries (y + 99) k K) as C.
  replace (y + 3 + k) with (y + k + 3) in A by lia. replace (y + 99 + k) with (y + k + 99) in C by lia.
  replace (y + k + 99 + 300) with (y + k + 399) in C by lia. replace (y + 99 + 300) with (y + 399) in C by lia. lia.
Qed.

Definition start (y : Z) : Z := 365 * y + leaps y.
Definition year_len (y : Z) : Z := if leapyear y then 366 else 365.

Lemma start_next y : 0 <= y -> start (y + 1) = start y + year_len y.
Proof. intros H. unfold start, year_len. rewrite leaps_len by auto. destruct (leapyear y); lia. Qed.

Lemma start_mono y z : 0 <= y <= z -> start y + 365 * (z - y) <= start z.
Proof. intros H. unfold start. pose proof (leaps_mono y (Z.to_nat (z - y)) ltac:(lia)) as L. replace (y + Z.of_nat (Z.to_nat (z - y))) with z in L by lia. lia. Qed.

(** one round of the loop *)
Lemma find_year_step y days fuel : (days < 0 \/ year_len y <= days) ->
  find_year y days (S fuel) = find_year (y + days / 365) (days - (start (y + days / 365) - start y)) fuel.
Proof.
  intros H. cbn [find_year]. fold (year_len y). replace ((days <? 0) || (year_len y <=? days)) with true by lia. cbv zeta.
  f_equal. rewrite !thru_leaps. unfold start. lia.
Qed.
Lemma find_year_end y days fuel : 0 <= days < year_len y -> find_year y days fuel = Some (y, days).
Proof.
  intros H. destruct fuel; cbn [find_year]; fold (year_len y);
    (replace ((days <? 0) || (year_len y <=? days)) with false by lia); reflexivity.
Qed.
Lemma year_len_cases y : year_len y = 365 \/ year_len y = 366.
Proof. unfold year_len. destruct (leapyear y); auto. Qed.

Lemma find_year_1 y days fuel : 0 <= y -> 0 <= days <= 366 ->
  exists z d, find_year y days (S fuel) = Some (z, d) /\ 0 <= z /\ 0 <= d < year_len z /\ d + start z = days + start y.
Proof.
  intros Y D. destruct (Z.ltb_spec days (year_len y)) as [L|L].
  - exists y, days. rewrite find_year_end by lia. split; [reflexivity|]. lia.
  - pose proof (year_len_cases y) as C. assert (Q : days / 365 = 1) by lia.
    rewrite find_year_step by lia. rewrite Q, start_next by auto. pose proof (year_len_cases (y + 1)).
    exists (y + 1), (days - (start y + year_len y - start y)). rewrite find_year_end by lia. split; [reflexivity|]. rewrite start_next by auto. lia.
Qed.

Lemma find_year_2 y days fuel : 6 <= y -> -2100 < days < 365 ->
  exists z d, find_year y days (S (S fuel)) = Some (z, d) /\ 0 <= z /\ 0 <= d < year_len z /\ d + start z = days + start y.
Proof.
  intros Y D. destruct (Z.ltb_spec days 0) as [L|L]; [|apply find_year_1; lia].
  rewrite find_year_step by lia. set (q := days / 365). assert (Q : -6 <= q <= -1) by (unfold q; lia).
  assert (R : 0 <= days - 365 * q < 365). { unfold q. pose proof (Z.mod_pos_bound days 365 ltac:(lia)). pose proof (Z.div_mod days 365 ltac:(lia)). lia. }
  clearbody q. pose proof (leaps_most (y + q) (- q) ltac:(lia)) as M. replace (y + q + - q) with y in M by lia.
  pose proof (leaps_mono (y + q) (Z.to_nat (- q)) ltac:(lia)) as Mo. replace (y + q + Z.of_nat (Z.to_nat (- q))) with y in Mo by lia.
  assert (K : - q / 4 <= 1) by lia.
  assert (B : 0 <= days - (start (y + q) - start y) <= 366) by (unfold start; lia).
  destruct (find_year_1 (y + q) (days - (start (y + q) - start y)) fuel ltac:(lia) B) as (z & d & E & Z0 & F & G).
  exists z, d. split; [exact E|]. lia.
Qed.

Lemma find_year_3 days fuel : 0 <= days < 2932897 ->
  exists z d, find_year 1970 days (S (S (S fuel))) = Some (z, d) /\ 0 <= z /\ 0 <= d < year_len z /\ d + start z = days + start 1970.
Proof.
  intros D. destruct (Z.ltb_spec days (year_len 1970)) as [L|L].
  - exists 1970, days. rewrite find_year_end by lia. split; [reflexivity|]. lia.
  - change (year_len 1970) with 365 in L.
    rewrite find_year_step by (change (year_len 1970) with 365; lia). set (q := days / 365). assert (Q : 1 <= q <= 8035) by (unfold q; lia).
    assert (R : 0 <= days - 365 * q < 365). { unfold q. pose proof (Z.mod_pos_bound days 365 ltac:(lia)). pose proof (Z.div_mod days 365 ltac:(lia)). lia. }
    clearbody q. pose proof (leaps_most 1970 q ltac:(lia)) as M.
    pose proof (leaps_mono 1970 (Z.to_nat q) ltac:(lia)) as Mo. replace (1970 + Z.of_nat (Z.to_nat q)) with (1970 + q) in Mo by lia.
    assert (K : q / 4 <= 2008) by lia.
    assert (B : -2100 < days - (start (1970 + q) - start 1970) < 365) by (unfold start; lia).
    destruct (find_year_2 (1970 + q) (days - (start (1970 + q) - start 1970)) fuel ltac:(lia) B) as (z & d & E & Z0 & F & G).
    exists z, d. split; [exact E|]. lia.
Qed.

Lemma find_year_range z d days : 0 <= z -> 0 <= days < 2932897 -> 0 <= d < year_len z -> d + start z = days + start 1970 -> 1970 <= z <= 9999.
Proof.
  intros Z0 D F G. pose proof (year_len_cases z). change (start 1970) with 719528 in G. split.
  - destruct (Z.ltb_spec z 1970); [|lia]. exfalso. pose proof (start_mono (z + 1) 1970 ltac:(lia)) as M. rewrite start_next in M by lia.
    change (start 1970) with 719528 in M. lia.
  - destruct (Z.ltb_spec 9999 z); [|lia]. exfalso. pose proof (start_mono 10000 z ltac:(lia)) as M. change (start 10000) with 3652425 in M. lia.
Qed.

(** the months *)
Lemma find_month_spec (leap_ : bool) yday : 0 <= yday < (if leap_ then 366 else 365) ->
  let m := find_month (mon_yday leap_) 11 yday in
  (m <= 11)%nat /\ nth m (mon_yday leap_) 0 <= yday /\
  yday - nth m (mon_yday leap_) 0 < Z.of_N (nth m [31; if leap_ then 29 else 28; 31; 30; 31; 30; 31; 31; 30; 31; 30; 31]%N 0%N).
Proof.
  intros H. cbv zeta. destruct leap_; cbn [find_month mon_yday nth];
  repeat match goal with |- context [yday <? ?v] => destruct (Z.ltb_spec yday v) end; cbn [nth]; lia.
Qed.

Lemma weekday_eq t : firstn 3 (nth (Z.to_nat ((4 + t / 86400) mod 7)) weekdays []) = weekday t.
Proof.
  unfold weekday. set (d := t / 86400). assert (E : (4 + d) mod 7 = if (d + 3) mod 7 =? 6 then 0 else (d + 3) mod 7 + 1).
  { destruct (Z.eqb_spec ((d + 3) mod 7) 6); lia. }
  rewrite E. pose proof (Z.mod_pos_bound (d + 3) 7 ltac:(lia)) as B. set (x := (d + 3) mod 7) in *. clearbody x. clear E d.
  assert (C : x = 0 \/ x = 1 \/ x = 2 \/ x = 3 \/ x = 4 \/ x = 5 \/ x = 6) by lia.
  destruct C as [->|[->|[->|[->|[->|[->| ->]]]]]]; reflexivity.
Qed.
Lemma weekday_in t : In (weekday t) day_names.
Proof.
  unfold weekday. apply nth_In. pose proof (Z.mod_pos_bound (t / 86400 + 3) 7 ltac:(lia)). change (length day_names) with 7%nat. lia.
Qed.
Lemma month_name_eq m : (m <= 11)%nat -> firstn 3 (nth m months []) = nth m month_names [].
Proof. intros H. do 12 (destruct m as [|m]; [reflexivity|]). lia. Qed.

Theorem time_text_spec t fuel : 0 <= t < 253402300800 -> (3 <= fuel)%nat ->
  exists y m d h mi s, valid_date y m d h mi s /\ seconds_since_epoch y m d h mi s = t /\
    time_text t fuel = Some (date_text (weekday t) y m d h mi s).
Proof.
  intros T Fu. destruct fuel as [|[|[|fuel]]]; try lia. clear Fu.
  set (days := t / 86400). set (rem := t mod 86400).
  assert (E : t = 86400 * days + rem) by (unfold days, rem; apply Z.div_mod; lia).
  assert (R : 0 <= rem < 86400) by (unfold rem; apply Z.mod_pos_bound; lia).
  assert (D : 0 <= days < 2932897) by (clearbody days rem; lia).
  destruct (find_year_3 days fuel D) as (y & yday & F & Y0 & Yl & Ys).
  pose proof (find_year_range y yday days Y0 D Yl Ys) as Yr.
  destruct (find_month_spec (leapyear y) yday Yl) as (M1 & M2 & M3).
  set (m := find_month (mon_yday (leapyear y)) 11 yday) in *.
  exists (Z.to_N y), (N.of_nat m + 1)%N, (Z.to_N (yday - nth m (mon_yday (leapyear y)) 0 + 1)),
    (Z.to_N (rem / 3600)), (Z.to_N (rem mod 3600 / 60)), (Z.to_N (rem mod 60)).
  assert (Ly : leapyear y = leap (Z.to_N y)) by (rewrite <- leapyear_eq, Z2N.id by auto; reflexivity).
  assert (Mn : N.to_nat (N.of_nat m + 1 - 1) = m) by lia.
  assert (H1 : 0 <= rem / 3600 < 24) by (clear -R; lia).
  assert (H2 : 0 <= rem mod 3600 / 60 < 60) by (clear -R; lia).
  assert (H3 : 0 <= rem mod 60 < 60) by (clear -R; lia).
  assert (H4 : rem = (rem / 3600 * 60 + rem mod 3600 / 60) * 60 + rem mod 60) by (clear -R; lia).
  split; [|split].
  - unfold valid_date. rewrite Mn. unfold month_lengths. rewrite <- Ly. set (ml := nth m [31%N; _; 31%N; 30%N; 31%N; 30%N; 31%N; 31%N; 30%N; 31%N; 30%N; 31%N] 0%N) in *.
    clearbody ml. clear -Yr M1 M2 M3 H1 H2 H3. lia.
  - unfold seconds_since_epoch. rewrite Mn.
    pose proof (month_start (Z.to_N y) (N.of_nat m + 1) ltac:(clear -M1; lia)) as Ms. rewrite Mn, <- Ly in Ms.
    rewrite N2Z.inj_add, Ms, !days_before_eq. replace (Z.of_nat (N.to_nat (Z.to_N y))) with y by lia.
    fold (start y). change (365 * Z.of_nat (N.to_nat 1970) + leaps (Z.of_nat (N.to_nat 1970))) with 719528.
    change (start 1970) with 719528 in Ys. rewrite E. set (st := start y) in *. set (mo := nth m (mon_yday (leapyear y)) 0) in *.
    clearbody st mo. clear -Ys M2 H1 H2 H3 H4. set (a := rem / 3600) in *. set (b := rem mod 3600 / 60) in *. set (c := rem mod 60) in *. clearbody a b c. lia.
  - unfold time_text, gmtime. fold days rem. rewrite F. cbv zeta. fold m. cbn [option_map strftime tm_sec tm_min tm_hour tm_mday tm_mon tm_year].
    unfold days. rewrite weekday_eq. unfold date_text. rewrite Mn, Nat2N.id, month_name_eq by auto.
    replace (y - 1900 + 1900) with y by lia. reflexivity.
Qed.

(** The text that is printed is read back. *)
Lemma text_read_back m pad t fuel : 0 <= t < 253402300800 -> (3 <= fuel)%nat ->
  reply_ok m -> time_text t fuel = Some (string_ m) -> length (reply_bytes m ++ pad) = 512%nat ->
  (length (reply_bytes m) < 512)%nat \/ more m ++ rest m <> [] ->
  discover dn_expand 0 (Z.of_nat (length (reply_bytes m))) (reply_bytes m ++ pad) = Ok (0, Some t).
Proof.
  intros T Fu Ok_ Tx L R. destruct (time_text_spec t fuel T Fu) as (y & mo & d & h & mi & s & V & Sec & E).
  rewrite (discover_date m pad (weekday t) y mo d h mi s); auto; [now rewrite Sec|apply weekday_in|congruence].
Qed.
