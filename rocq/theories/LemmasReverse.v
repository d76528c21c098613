(** Reverse DNS pointers. *)
From Coq Require Import String.
From Coq Require Import NArith ZArith List Bool Arith Lia ZifyBool ZifyNat ZifyN.
From Verif Require Import Base LemmasBase ModelAddress LemmasAddress ModelCountryCode ModelNetwork LemmasNetwork
  SpecNetwork LemmasSpecNetwork ModelText SpecText LemmasText LemmasTextAddr.
Import ListNotations.
Open Scope N_scope.

(** * Digits of a number *)
Definition digit (B : N) (m i : nat) (v : N) : N := v / B ^ N.of_nat (m - 1 - i) mod B.

Lemma digit_step B m k v : 2 <= B -> (k < m)%nat ->
  v / B ^ N.of_nat (m - S k) = v / B ^ N.of_nat (m - k) * B + digit B m k v.
Proof.
  intros HB K. unfold digit. replace (m - 1 - k)%nat with (m - S k)%nat by lia.
  replace (m - k)%nat with (S (m - S k)) by lia. set (e := (m - S k)%nat).
  rewrite Nat2N.inj_succ, N.pow_succ_r'. rewrite (N.mul_comm B), <- N.div_div by (try apply N.pow_nonzero; lia).
  pose proof (N.div_mod' (v / B ^ N.of_nat e) B). lia.
Qed.

Lemma digits_agree B m k v w : 2 <= B -> (k <= m)%nat -> (forall i, (i < k)%nat -> digit B m i v = digit B m i w) ->
  v / B ^ N.of_nat m = w / B ^ N.of_nat m -> v / B ^ N.of_nat (m - k) = w / B ^ N.of_nat (m - k).
Proof.
  intros HB K D E. induction k as [|k IH]; [now rewrite Nat.sub_0_r|].
  rewrite !digit_step by (auto; lia). rewrite IH, D by (auto; lia). reflexivity.
Qed.

Lemma digit_lt B m i v : 2 <= B -> digit B m i v < B.
Proof. intros H. apply N.mod_lt. lia. Qed.

Lemma oct_digit a i : wf a -> (i < 16)%nat -> oct a i = digit 256 16 i (val a).
Proof.
  intros W I. unfold digit. replace (16 - 1 - i)%nat with (15 - i)%nat by lia.
  pose proof (be_skipn_mod a i W ltac:(lia)) as E. rewrite skipn_oct in E by (destruct W; lia).
  cbn [be] in E. rewrite skipn_length, (proj1 W) in E. replace (16 - S i)%nat with (15 - i)%nat in E by lia.
  pose proof (be_skipn_bound a (S i) W ltac:(lia)) as B. replace (16 - S i)%nat with (15 - i)%nat in B by lia.
  replace (16 - i)%nat with (S (15 - i)) in E by lia. rewrite pow256_S in E.
  pose proof (pow256_pos (15 - i)) as P. set (p := 256 ^ N.of_nat (15 - i)) in *.
  rewrite (N.mul_comm 256), N.mod_mul_r in E by lia.
  assert (M : val a mod p < p) by (apply N.mod_lt; lia).
  assert (D : (oct a i * p + be (skipn (S i) a)) / p = oct a i).
  { rewrite N.div_add_l, N.div_small by lia. lia. }
  rewrite E in D. rewrite (N.mul_comm p), N.add_comm, N.div_add_l, (N.div_small (val a mod p)) in D by lia. lia.
Qed.

Lemma digit_16_256 i v : (i < 32)%nat -> nibble i v =
  (if (i mod 2 =? 0)%nat then digit 256 16 (i / 2) v / 16 else digit 256 16 (i / 2) v mod 16).
Proof.
  intros I. unfold nibble, digit.
  pose proof (Nat.div_mod i 2 ltac:(lia)) as D. pose proof (Nat.mod_upper_bound i 2 ltac:(lia)) as U.
  set (j := (i / 2)%nat) in *. set (r := (i mod 2)%nat) in *. clearbody j r.
  assert (R : r = 0%nat \/ r = 1%nat) by lia. replace (16 - 1 - j)%nat with (15 - j)%nat by lia.
  assert (P : 256 ^ N.of_nat (15 - j) = 16 ^ N.of_nat (2 * (15 - j))).
  { change 256 with (16 ^ 2). rewrite <- N.pow_mul_r. f_equal. lia. }
  rewrite P. destruct R as [-> | ->]; cbn [Nat.eqb].
  - replace (31 - i)%nat with (S (2 * (15 - j))) by lia. set (e := (2 * (15 - j))%nat).
    rewrite Nat2N.inj_succ, N.pow_succ_r', (N.mul_comm 16), <- N.div_div by (try apply N.pow_nonzero; lia).
    set (x := v / 16 ^ N.of_nat e). clearbody x.
    change 256 with (16 * 16). rewrite N.mod_mul_r by lia.
    rewrite (N.mul_comm 16), N.add_comm, N.div_add_l, (N.div_small (x mod 16)) by (try apply N.mod_lt; lia). lia.
  - replace (31 - i)%nat with (2 * (15 - j))%nat by lia. set (e := (2 * (15 - j))%nat).
    set (x := v / 16 ^ N.of_nat e). clearbody x.
    change 256 with (16 * 16). rewrite N.mod_mul_r by lia.
    rewrite (N.mul_comm 16), N.mod_add by lia. now rewrite N.mod_mod by lia.
Qed.

Lemma get_nibble_spec a i : wf a -> v4mapped a = false -> (i < 32)%nat ->
  addr_get_nibble a i = Ok (nibble i (val a)).
Proof.
  intros W M I. assert (J : (i / 2 < 16)%nat) by (apply Nat.div_lt_upper_bound; lia).
  unfold addr_get_nibble, addr_get_octet. rewrite M.
  replace (32 <=? i / 2)%nat with false by lia. replace (16 <=? i / 2)%nat with false by lia. cbn [bind].
  rewrite oct_digit by auto. rewrite (digit_16_256 i) by auto.
  pose proof (digit_lt 256 16 (i / 2) (val a) ltac:(lia)) as L. set (x := digit 256 16 (i / 2) (val a)) in *. clearbody x.
  f_equal. change 15 with (N.ones 4). rewrite N.land_ones. change (2 ^ 4) with 16.
  destruct (i mod 2 =? 0)%nat; auto. rewrite N.shiftr_div_pow2. change (2 ^ 4) with 16.
  apply N.mod_small. apply N.div_lt_upper_bound; lia.
Qed.

Lemma get_octet4_spec a i : wf a -> v4mapped a = true -> (i < 4)%nat ->
  addr_get_octet a i = Ok (octet4 i (val a)).
Proof.
  intros W M I. unfold addr_get_octet. rewrite M. replace (4 <=? i)%nat with false by lia.
  rewrite oct_digit by (auto; lia). unfold digit, octet4. now replace (16 - 1 - (12 + i))%nat with (3 - i)%nat by lia.
Qed.

(** * Names *)
Lemma dotted_app l1 l2 : dotted (l1 ++ l2) = dotted l1 ++ dotted l2.
Proof. unfold dotted. now rewrite map_app, concat_app. Qed.

Definition nodot (l : list N) : Prop := Forall (fun c => c <> 46) l.

Lemma dotted_inj l1 : forall l2, Forall nodot l1 -> Forall nodot l2 -> dotted l1 = dotted l2 -> l1 = l2.
Proof.
  assert (C : forall x y s t, nodot x -> nodot y -> x ++ 46 :: s = y ++ 46 :: t -> x = y /\ s = t).
  { induction x as [|a x IH]; intros [|b y] s t X Y E; cbn [app] in E.
    - injection E as ->. auto.
    - injection E as <- _. inversion Y; subst. contradiction.
    - injection E as -> _. inversion X; subst. contradiction.
    - injection E as <- E. inversion X; inversion Y; subst. destruct (IH y s t) as [-> ->]; auto. }
  induction l1 as [|x l1 IH]; intros [|y l2] F1 F2 E; auto.
  - exfalso. unfold dotted in E. cbn [map concat] in E. rewrite <- app_assoc in E. symmetry in E. apply app_eq_nil in E as [_ E]. discriminate.
  - exfalso. unfold dotted in E. cbn [map concat] in E. rewrite <- app_assoc in E. apply app_eq_nil in E as [_ E]. discriminate.
  - inversion F1; inversion F2; subst. unfold dotted in E. cbn [map concat] in E. rewrite <- !app_assoc in E. cbn [app] in E.
    destruct (C _ _ _ _ H1 H5 E) as [-> E']. f_equal. now apply IH.
Qed.

(** * IPv6 *)
Lemma hex_nibble x : x < 16 -> hex x = [digit_char x].
Proof.
  intros H. unfold hex. cbn [digits]. now replace (x <? 16) with true by lia.
Qed.

Lemma hex_label x : x < 16 -> nibble_label (hex x) x.
Proof.
  intros H. unfold nibble_label. rewrite hex_nibble by auto.
  assert (C : x = 0 \/ x = 1 \/ x = 2 \/ x = 3 \/ x = 4 \/ x = 5 \/ x = 6 \/ x = 7 \/ x = 8 \/ x = 9 \/ x = 10 \/
    x = 11 \/ x = 12 \/ x = 13 \/ x = 14 \/ x = 15) by lia.
  repeat (destruct C as [-> | C]; [reflexivity|]). subst x. reflexivity.
Qed.

Lemma reverse_loop_spec a n : forall i buf, wf a -> v4mapped a = false -> (i + n <= 32)%nat ->
  reverse_loop a i n buf = Ok (dotted (map hex (rev (map (fun j => nibble j (val a)) (seq i n)))) ++ buf).
Proof.
  induction n as [|n IH]; intros i buf W M L; [reflexivity|].
  cbn [reverse_loop]. rewrite get_nibble_spec by (auto; lia). cbn [bind]. rewrite IH by (auto; lia).
  f_equal. cbn [seq map rev]. rewrite map_app, dotted_app, <- app_assoc. f_equal.
  cbn [map dotted concat]. unfold dotted. cbn [map concat]. rewrite <- !app_assoc. reflexivity.
Qed.

Definition nibbles (n : network) : list N := map (fun i => nibble i (lo n)) (seq 0 (n_prefix n / 4)).
Definition star (n : network) (labels : list (list N)) : list (list N) :=
  if lo n =? hi n then labels else [STAR] :: labels.

Lemma single_128 n : net_wf n -> lo n = hi n <-> n_prefix n = 128%nat.
Proof.
  intros W. rewrite (hi_lo n W). pose proof (blk_pos (n_prefix n)). pose proof (w_prefix n W).
  unfold blk in *. split; intros E.
  - destruct (Nat.eq_dec (n_prefix n) 128); auto. exfalso.
    assert (2 ^ 1 <= 2 ^ N.of_nat (128 - n_prefix n)) by (apply N.pow_le_mono_r; lia). lia.
  - rewrite E. cbn. lia.
Qed.

Lemma star_6 n labels : net_wf n ->
  dotted (star n labels) = (if (n_prefix n <? 128)%nat then [STAR; DOT] else []) ++ dotted labels.
Proof.
  intros W. pose proof (single_128 n W) as S0. pose proof (w_prefix n W). unfold star.
  destruct (N.eqb_spec (lo n) (hi n)) as [E|E].
  - apply S0 in E. now replace (n_prefix n <? 128)%nat with false by lia.
  - replace (n_prefix n <? 128)%nat with true; [reflexivity|].
    destruct (Nat.eq_dec (n_prefix n) 128); [tauto|lia].
Qed.

Lemma mod_nat_N p k : (0 < k)%nat -> (N.of_nat p mod N.of_nat k =? 0) = (p mod k =? 0)%nat.
Proof. intros K. rewrite <- Nat2N.inj_mod. destruct (Nat.eqb_spec (p mod k) 0); lia. Qed.

Lemma reverse6_spec n suffix : net_wf n -> n_family n = AF_INET6 ->
  reverse_pointer n suffix =
  if (n_prefix n mod 4 =? 0)%nat
  then Ok (dotted (star n (map hex (rev (nibbles n)))) ++ default_suffix ip6_arpa suffix)
  else Err ENOTSUP.
Proof.
  intros W F. unfold reverse_pointer. rewrite F. unfold reverse_pointer6.
  assert (P : network_prefix n = N.of_nat (n_prefix n)) by (unfold network_prefix; now rewrite F).
  rewrite P. change 4 with (N.of_nat 4). rewrite mod_nat_N by lia.
  destruct (n_prefix n mod 4 =? 0)%nat; auto. cbn [negb].
  rewrite <- Nat2N.inj_div, Nat2N.id.
  assert (M : v4mapped (n_first n) = false).
  { rewrite v4mapped_val by apply W. fold (lo n). rewrite (w_family n W) in F. now destruct (mappedb (lo n)). }
  assert (Q : (n_prefix n / 4 <= 32)%nat).
  { pose proof (w_prefix n W). transitivity (128 / 4)%nat; [now apply Nat.div_le_mono; lia|reflexivity]. }
  rewrite reverse_loop_spec by (auto; apply W). cbn [bind]. rewrite star_6 by auto. rewrite <- app_assoc. fold (lo n). fold (nibbles n).
  replace (N.of_nat (n_prefix n) <? 128) with (n_prefix n <? 128)%nat by lia.
  destruct (n_prefix n <? 128)%nat; reflexivity.
Qed.

(** * IPv4 *)
Definition octets4 (n : network) : list N := map (fun i => octet4 i (lo n)) (seq 0 ((n_prefix n - 96) / 8)).

Lemma reverse4_spec n suffix : net_wf n -> n_family n = AF_INET ->
  reverse_pointer n suffix =
  if (n_prefix n mod 8 =? 0)%nat
  then Ok (dotted (star n (map dec (rev (octets4 n)))) ++ default_suffix in_addr_arpa suffix)
  else Err ENOTSUP.
Proof.
  intros W F. unfold reverse_pointer. rewrite F. unfold reverse_pointer4.
  assert (M : mappedb (lo n) = true).
  { rewrite (w_family n W) in F. now destruct (mappedb (lo n)). }
  assert (M' : v4mapped (n_first n) = true) by (rewrite v4mapped_val by apply W; exact M).
  pose proof (w_prefix4 n W M) as P96. pose proof (w_prefix n W) as P128.
  rewrite network_prefix_val by auto. rewrite M. rewrite star_6 by auto.
  set (s := default_suffix in_addr_arpa suffix). clearbody s.
  assert (E8 : (N.of_nat (n_prefix n - 96) mod 8 =? 0) = (n_prefix n mod 8 =? 0)%nat).
  { change 8 with (N.of_nat 8). rewrite mod_nat_N by lia. f_equal.
    replace (n_prefix n) with (n_prefix n - 96 + 12 * 8)%nat at 2 by lia. now rewrite Nat.mod_add by lia. }
  rewrite E8. destruct (Nat.eqb_spec (n_prefix n mod 8) 0) as [Z|Z]; auto. cbn [negb].
  assert (C : (n_prefix n = 96 \/ n_prefix n = 104 \/ n_prefix n = 112 \/ n_prefix n = 120 \/ n_prefix n = 128)%nat).
  { pose proof (Nat.div_mod (n_prefix n) 8 ltac:(lia)) as D. rewrite Z in D. lia. }
  rewrite !get_octet4_spec by (auto; try apply W; lia). cbn [bind]. fold (lo n). unfold octets4.
  assert (D : forall (x : N) (l : list (list N)), dotted (dec x :: l) = dec x ++ DOT :: dotted l)
    by (intros; unfold dotted; cbn [map concat]; now rewrite <- app_assoc).
  destruct C as [-> | [-> | [-> | [-> | ->]]]];
    lazymatch goal with |- context [N.of_nat ?k =? 32] => let r := eval vm_compute in (N.of_nat k) in change (N.of_nat k) with r end;
    cbn [N.eqb Pos.eqb];
    lazymatch goal with |- context [seq 0 ?k] => let r := eval vm_compute in (seq 0 k) in change (seq 0 k) with r end;
    lazymatch goal with |- context [if ?c then [STAR; DOT] else []] => let r := eval vm_compute in c in change c with r end;
    cbn [map rev app]; rewrite ?D; unfold dotted at 1; cbn [map concat]; cbn [app]; repeat (rewrite <- app_assoc; cbn [app]); reflexivity.
Qed.

(** * Different networks have different names *)
Lemma hex_inj x y : x < 16 -> y < 16 -> hex x = hex y -> x = y.
Proof.
  intros X Y. rewrite !hex_nibble by auto. intros [= E]. unfold digit_char in E.
  destruct (N.ltb_spec x 10), (N.ltb_spec y 10); lia.
Qed.

Lemma dec_inj x y : x < 256 -> y < 256 -> dec x = dec y -> x = y.
Proof.
  intros X Y E. assert (X' : x < 2 ^ 32) by lia. assert (Y' : y < 2 ^ 32) by lia.
  rewrite !dec_dd in E by auto. destruct (dd_spec x X') as [A _]. destruct (dd_spec y Y') as [B _].
  rewrite <- A, <- B. f_equal. revert E. generalize (dd x) (dd y). clear.
  induction l as [|a l IH]; intros [|b l2] E; cbn [map] in E; try discriminate; auto.
  assert (E1 : 48 + a = 48 + b) by congruence. assert (E2 : map (fun d => 48 + d) l = map (fun d => 48 + d) l2) by congruence.
  rewrite (IH _ E2). f_equal. lia.
Qed.

Lemma hex_nodot x : x < 16 -> nodot (hex x).
Proof.
  intros H. rewrite hex_nibble by auto. constructor; [|constructor]. unfold digit_char. destruct (x <? 10) eqn:E; lia.
Qed.

Lemma dec_nodot x : x < 256 -> nodot (dec x).
Proof.
  intros H. assert (H' : x < 2 ^ 32) by lia. rewrite dec_dd by auto. unfold nodot. rewrite Forall_map.
  apply Forall_forall. intros d _. lia.
Qed.

Lemma hex_nostar x : x < 16 -> hex x <> [STAR].
Proof.
  intros H. rewrite hex_nibble by auto. intros E. assert (Q : digit_char x = STAR) by congruence.
  unfold digit_char, STAR in Q. destruct (N.ltb_spec x 10); lia.
Qed.

Lemma dec_nostar x : x < 256 -> dec x <> [STAR].
Proof.
  intros H. assert (H' : x < 2 ^ 32) by lia. rewrite dec_dd by auto. destruct (dd x) as [|d l]; [discriminate|].
  cbn [map]. intros E. assert (48 + d = STAR) by congruence. unfold STAR in *. lia.
Qed.

Lemma map_inj_on (f : N -> list N) B l1 : (forall x y, x < B -> y < B -> f x = f y -> x = y) ->
  forall l2, Forall (fun x => x < B) l1 -> Forall (fun x => x < B) l2 -> map f l1 = map f l2 -> l1 = l2.
Proof.
  intros I. induction l1 as [|x l1 IH]; intros [|y l2] F1 F2 E; cbn in E; try discriminate; auto.
  inversion F1; inversion F2; subst. injection E as E1 E2. f_equal; auto.
Qed.

(** the general form: labels printed from digits *)
Lemma labels_inj (f : N -> list N) B n m l1 l2 :
  (forall x y, x < B -> y < B -> f x = f y -> x = y) -> (forall x, x < B -> nodot (f x)) ->
  (forall x, x < B -> f x <> [STAR]) ->
  Forall (fun x => x < B) l1 -> Forall (fun x => x < B) l2 ->
  dotted (star n (map f (rev l1))) = dotted (star m (map f (rev l2))) -> l1 = l2.
Proof.
  intros I ND NS F1 F2 E.
  assert (R : forall l, Forall (fun x => x < B) l -> Forall (fun x => x < B) (rev l)).
  { intros l F. rewrite Forall_forall in *. intros x H. apply F. now apply in_rev. }
  assert (D : forall k l, Forall (fun x => x < B) l -> Forall nodot (star k (map f (rev l)))).
  { intros k l F. assert (G : Forall nodot (map f (rev l))).
    { rewrite Forall_map. eapply Forall_impl; [|apply R; exact F]. cbn. auto. }
    unfold star. destruct (lo k =? hi k); auto. constructor; auto. repeat constructor. discriminate. }
  apply dotted_inj in E; auto.
  assert (NH : forall l t, Forall (fun x => x < B) l -> map f (rev l) <> [STAR] :: t).
  { intros l t F Q. apply R in F. destruct (rev l) as [|x r]; [discriminate|]. cbn [map] in Q.
    inversion F; subst. apply (NS x); auto. congruence. }
  assert (G : map f (rev l1) = map f (rev l2)).
  { unfold star in E. destruct (lo n =? hi n), (lo m =? hi m); auto.
    - exfalso. eapply NH; [exact F1|exact E].
    - exfalso. symmetry in E. eapply NH; [exact F2|exact E].
    - now injection E. }
  apply (map_inj_on f B) in G; auto. rewrite <- (rev_involutive l1), G. apply rev_involutive.
Qed.

Lemma nth_map_seq (g : nat -> N) k l : forall i, (i < k)%nat -> map g (seq 0 k) = l -> nth i l 0 = g i.
Proof.
  intros i I <-. rewrite (nth_indep _ 0 (g 0%nat)) by (rewrite map_length, seq_length; lia).
  rewrite map_nth, seq_nth by lia. reflexivity.
Qed.

Lemma div_mul_4 p q k : (0 < k)%nat -> (p mod k = 0)%nat -> (q mod k = 0)%nat -> (p / k = q / k)%nat -> p = q.
Proof.
  intros K P Q E. rewrite (Nat.div_mod p k), (Nat.div_mod q k) by lia. now rewrite P, Q, E.
Qed.

Lemma pointer_inj n m suffix p : net_wf n -> net_wf m -> n_family n = n_family m ->
  reverse_pointer n suffix = Ok p -> reverse_pointer m suffix = Ok p ->
  n_first n = n_first m /\ n_last n = n_last m /\ n_prefix n = n_prefix m.
Proof.
  intros Wn Wm F En Em.
  assert (G : lo n = lo m /\ n_prefix n = n_prefix m).
  { destruct (n_family n) eqn:Fn; symmetry in F.
    - rewrite (reverse4_spec n suffix Wn Fn) in En. rewrite (reverse4_spec m suffix Wm F) in Em.
      destruct (Nat.eqb_spec (n_prefix n mod 8) 0) as [Zn|]; [|discriminate].
      destruct (Nat.eqb_spec (n_prefix m mod 8) 0) as [Zm|]; [|discriminate].
      rewrite <- Em in En. clear Em p.
      assert (E : dotted (star n (map dec (rev (octets4 n)))) = dotted (star m (map dec (rev (octets4 m))))).
      { apply app_inv_tail with (default_suffix in_addr_arpa suffix). congruence. }
      clear En. apply (labels_inj dec 256) in E; auto using dec_inj, dec_nodot, dec_nostar.
      2,3: unfold octets4; rewrite Forall_map; apply Forall_forall; intros i _; unfold octet4; apply N.mod_lt; lia.
      assert (Mn : mappedb (lo n) = true) by (rewrite (w_family n Wn) in Fn; now destruct (mappedb (lo n))).
      assert (Mm : mappedb (lo m) = true) by (rewrite (w_family m Wm) in F; now destruct (mappedb (lo m))).
      pose proof (w_prefix4 n Wn Mn) as Pn. pose proof (w_prefix4 m Wm Mm) as Pm.
      pose proof (w_prefix n Wn). pose proof (w_prefix m Wm).
      assert (K : ((n_prefix n - 96) / 8 = (n_prefix m - 96) / 8)%nat).
      { apply (f_equal (@length N)) in E. unfold octets4 in E. now rewrite !map_length, !seq_length in E. }
      assert (Sub : forall q, (96 <= q)%nat -> (q mod 8 = 0)%nat -> ((q - 96) mod 8 = 0)%nat).
      { intros q Q Z. replace q with (q - 96 + 12 * 8)%nat in Z by lia. now rewrite Nat.mod_add in Z by lia. }
      assert (P : n_prefix n = n_prefix m).
      { apply (div_mul_4 _ _ 8) in K; [lia|lia|now apply Sub|now apply Sub]. }
      split; auto. set (k := ((n_prefix n - 96) / 8)%nat) in *.
      assert (PK : (n_prefix n = 96 + 8 * k)%nat).
      { pose proof (Nat.div_mod (n_prefix n - 96) 8 ltac:(lia)) as D. rewrite (Sub _ Pn Zn) in D. fold k in D. lia. }
      assert (A : forall i, (i < k)%nat -> digit 256 4 i (lo n) = digit 256 4 i (lo m)).
      { intros i I. unfold octets4 in E. rewrite <- K in E. fold k in E.
        pose proof (nth_map_seq (fun i => octet4 i (lo m)) k _ i I eq_refl) as X. rewrite <- E in X.
        rewrite (nth_map_seq (fun i => octet4 i (lo n)) k _ i I eq_refl) in X.
        unfold digit. replace (4 - 1 - i)%nat with (3 - i)%nat by lia. exact X. }
      apply digits_agree in A; [|lia|lia|].
      2:{ unfold mappedb in Mn, Mm. change (256 ^ N.of_nat 4) with (2 ^ 32). lia. }
      rewrite <- (w_lo n Wn), <- (w_lo m Wm), <- P. unfold first_of, blk. rewrite pow256_nat in A.
      replace (8 * (4 - k))%nat with (128 - n_prefix n)%nat in A by lia. now rewrite A.
    - rewrite (reverse6_spec n suffix Wn Fn) in En. rewrite (reverse6_spec m suffix Wm F) in Em.
      destruct (Nat.eqb_spec (n_prefix n mod 4) 0) as [Zn|]; [|discriminate].
      destruct (Nat.eqb_spec (n_prefix m mod 4) 0) as [Zm|]; [|discriminate].
      rewrite <- Em in En. clear Em p.
      assert (E : dotted (star n (map hex (rev (nibbles n)))) = dotted (star m (map hex (rev (nibbles m))))).
      { apply app_inv_tail with (default_suffix ip6_arpa suffix). congruence. }
      clear En. apply (labels_inj hex 16) in E; auto using hex_inj, hex_nodot, hex_nostar.
      2,3: unfold nibbles; rewrite Forall_map; apply Forall_forall; intros i _; unfold nibble; apply N.mod_lt; lia.
      pose proof (w_prefix n Wn). pose proof (w_prefix m Wm).
      assert (K : (n_prefix n / 4 = n_prefix m / 4)%nat).
      { apply (f_equal (@length N)) in E. unfold nibbles in E. now rewrite !map_length, !seq_length in E. }
      assert (P : n_prefix n = n_prefix m) by (apply (div_mul_4 _ _ 4); auto; lia).
      split; auto. set (k := (n_prefix n / 4)%nat) in *.
      assert (PK : (n_prefix n = 4 * k)%nat).
      { pose proof (Nat.div_mod (n_prefix n) 4 ltac:(lia)) as D. fold k in D. lia. }
      assert (A : forall i, (i < k)%nat -> digit 16 32 i (lo n) = digit 16 32 i (lo m)).
      { intros i I. unfold nibbles in E. rewrite <- K in E. fold k in E.
        pose proof (nth_map_seq (fun i => nibble i (lo m)) k _ i I eq_refl) as X. rewrite <- E in X.
        rewrite (nth_map_seq (fun i => nibble i (lo n)) k _ i I eq_refl) in X.
        unfold digit. replace (32 - 1 - i)%nat with (31 - i)%nat by lia. exact X. }
      apply digits_agree in A; [|lia|lia|].
      2:{ change (16 ^ N.of_nat 32) with (2 ^ 128). rewrite !N.div_small by (apply lo_bound; auto). reflexivity. }
      rewrite <- (w_lo n Wn), <- (w_lo m Wm), <- P. unfold first_of, blk.
      replace (16 ^ N.of_nat (32 - k)) with (2 ^ N.of_nat (128 - n_prefix n)) in A.
      2:{ change 16 with (2 ^ 4). rewrite <- N.pow_mul_r. f_equal. lia. }
      now rewrite A. }
  destruct G as [G P]. destruct (net_eq n m Wn Wm G P) as (A & B & _). auto.
Qed.

(** with the default suffixes the families are told apart as well *)
Lemma pointer_families n m p : net_wf n -> net_wf m -> n_family n = AF_INET6 -> n_family m = AF_INET ->
  reverse_pointer n None = Ok p -> reverse_pointer m None = Ok p -> False.
Proof.
  intros Wn Wm Fn Fm En Em. rewrite (reverse6_spec n None Wn Fn) in En. rewrite (reverse4_spec m None Wm Fm) in Em.
  destruct (n_prefix n mod 4 =? 0)%nat; [|discriminate]. destruct (n_prefix m mod 8 =? 0)%nat; [|discriminate].
  rewrite <- Em in En. clear Em.
  assert (E : dotted (star n (map hex (rev (nibbles n)))) ++ ip6_arpa = dotted (star m (map dec (rev (octets4 m)))) ++ in_addr_arpa)
    by (cbn [default_suffix] in En; congruence).
  clear En. apply (f_equal (@rev N)) in E. rewrite !rev_app_distr in E. cbn [rev ip6_arpa in_addr_arpa app] in E. discriminate.
Qed.

Lemma pointer_inj_default n m p : net_wf n -> net_wf m ->
  reverse_pointer n None = Ok p -> reverse_pointer m None = Ok p ->
  n_first n = n_first m /\ n_last n = n_last m /\ n_prefix n = n_prefix m.
Proof.
  intros Wn Wm En Em. destruct (n_family n) eqn:Fn, (n_family m) eqn:Fm.
  - eapply pointer_inj; eauto. congruence.
  - exfalso. eapply (pointer_families m n); eauto.
  - exfalso. eapply (pointer_families n m); eauto.
  - eapply pointer_inj; eauto. congruence.
Qed.

(** * The statements in terms of labels *)
Lemma suffix6 s : default_suffix ip6_arpa s = match s with None => txt "ip6.arpa." | Some s => s end.
Proof. now destruct s. Qed.
Lemma suffix4 s : default_suffix in_addr_arpa s = match s with None => txt "in-addr.arpa." | Some s => s end.
Proof. now destruct s. Qed.

Lemma Forall2_map_self {A B} (R : B -> A -> Prop) (f : A -> B) l : (forall x, In x l -> R (f x) x) -> Forall2 R (map f l) l.
Proof. induction l; intros H; constructor; auto using in_eq, in_cons. Qed.

Lemma pointer6_labels n suffix : valid_network n -> n_family n = AF_INET6 ->
  ((n_prefix n mod 4 = 0)%nat -> exists labels,
     Forall2 nibble_label labels (rev (map (fun i => nibble i (num (n_first n))) (seq 0 (n_prefix n / 4)))) /\
     reverse_pointer n suffix =
       Ok (dotted ((if num (n_first n) =? num (n_last n) then [] else [txt "*"]) ++ labels) ++
           match suffix with None => txt "ip6.arpa." | Some s => s end)) /\
  ((n_prefix n mod 4 <> 0)%nat -> reverse_pointer n suffix = Err ENOTSUP).
Proof.
  intros V F. apply valid_net_wf in V. rewrite (reverse6_spec n suffix V F). split; intros Z.
  - rewrite Z. cbn [Nat.eqb]. exists (map hex (rev (nibbles n))). split.
    + unfold nibbles. apply Forall2_map_self. intros x I. apply hex_label. apply in_rev in I. rewrite in_map_iff in I.
      destruct I as (i & <- & _). apply N.mod_lt. lia.
    + rewrite suffix6. f_equal. f_equal. f_equal. unfold star. change (num (n_first n)) with (lo n). change (num (n_last n)) with (hi n).
      now destruct (lo n =? hi n).
  - now replace (n_prefix n mod 4 =? 0)%nat with false by lia.
Qed.

Lemma pointer4_labels n suffix : valid_network n -> n_family n = AF_INET ->
  ((n_prefix n mod 8 = 0)%nat -> exists labels,
     Forall2 plain_decimal labels (rev (map (fun i => octet4 i (num (n_first n))) (seq 0 ((n_prefix n - 96) / 8)))) /\
     reverse_pointer n suffix =
       Ok (dotted ((if num (n_first n) =? num (n_last n) then [] else [txt "*"]) ++ labels) ++
           match suffix with None => txt "in-addr.arpa." | Some s => s end)) /\
  ((n_prefix n mod 8 <> 0)%nat -> reverse_pointer n suffix = Err ENOTSUP).
Proof.
  intros V F. apply valid_net_wf in V. rewrite (reverse4_spec n suffix V F). split; intros Z.
  - rewrite Z. cbn [Nat.eqb]. exists (map dec (rev (octets4 n))). split.
    + unfold octets4. apply Forall2_map_self. intros x I. apply dec_plain. apply in_rev in I. rewrite in_map_iff in I.
      destruct I as (i & <- & _). unfold octet4. change (num (n_first n)) with (lo n). pose proof (N.mod_lt (lo n / 256 ^ N.of_nat (3 - i)) 256). lia.
    + rewrite suffix4. f_equal. f_equal. f_equal. unfold star. change (num (n_first n)) with (lo n). change (num (n_last n)) with (hi n).
      now destruct (lo n =? hi n).
  - now replace (n_prefix n mod 8 =? 0)%nat with false by lia.
Qed.
