(** Proofs about hexdump (C90). *)
From Coq Require Import NArith ZArith List Bool Arith Lia ZifyBool ZifyNat ZifyN.
From Verif Require Import Base LemmasBase ModelHexdump SpecHexdump.
Import ListNotations.
Open Scope N_scope.

(** ** Numbers *)
Lemma digit_hex d : d < 16 -> digit d = hex_digit d.
Proof. intros H. assert (d = 0 \/ d = 1 \/ d = 2 \/ d = 3 \/ d = 4 \/ d = 5 \/ d = 6 \/ d = 7 \/ d = 8 \/ d = 9 \/ d = 10 \/ d = 11 \/ d = 12 \/ d = 13 \/ d = 14 \/ d = 15) as C by lia.
  repeat (destruct C as [->|C]; [reflexivity|]). now subst. Qed.
Lemma hex_digit_bounds d : d < 16 -> 48 <= hex_digit d <= 102.
Proof. intros H. rewrite <- digit_hex by exact H. unfold digit. destruct (d <? 10) eqn:E; lia. Qed.
Lemma digits_acc w fuel : forall n acc, digits w fuel n acc = digits w fuel n [] ++ acc.
Proof.
  revert w. induction fuel as [|fuel IH]; intros w n acc; cbn [digits]; [reflexivity|]. destruct w as [|w].
  - destruct (n =? 0); [reflexivity|]. rewrite IH, (IH _ _ [_]), <- app_assoc. reflexivity.
  - rewrite IH, (IH _ _ [_]), <- app_assoc. reflexivity.
Qed.
Lemma hex_of_S w n : hex_of (S w) n = hex_of w (n / 16) ++ [hex_digit (n mod 16)].
Proof.
  unfold hex_of. cbn [seq]. rewrite <- seq_shift. cbn [rev]. rewrite <- map_rev, map_app, map_map. f_equal.
  - apply map_ext. intros k. f_equal. f_equal. rewrite Nat2N.inj_succ, N.pow_succ_r', N.div_div; [reflexivity|lia|]. apply N.pow_nonzero. lia.
  - cbn [map N.of_nat]. now rewrite N.pow_0_r, N.div_1_r.
Qed.
Lemma digits_S w fuel n : digits (S w) (S fuel) n [] = digits w fuel (n / 16) [] ++ [hex_digit (n mod 16)].
Proof. cbn [digits]. rewrite digits_acc, digit_hex; [reflexivity|]. apply N.mod_lt. lia. Qed.
Lemma digits_0 fuel n : n <> 0 -> digits 0 (S fuel) n [] = digits 0 fuel (n / 16) [] ++ [hex_digit (n mod 16)].
Proof. intros H. cbn [digits]. rewrite (proj2 (N.eqb_neq _ _) H). rewrite digits_acc, digit_hex; [reflexivity|]. apply N.mod_lt. lia. Qed.
Lemma digits_zero fuel : digits 0 fuel 0 [] = [].
Proof. destruct fuel; reflexivity. Qed.
(** A number of exactly w digits *)
Lemma digits_exact fuel : forall w n, (w <= fuel)%nat -> n < 16 ^ N.of_nat w -> (w = 0%nat \/ 16 ^ N.of_nat (pred w) <= n) -> digits 0 fuel n [] = hex_of w n.
Proof.
  induction fuel as [|fuel IH]; intros w n L B C.
  - assert (w = 0%nat) by lia. subst w. reflexivity.
  - destruct w as [|w].
    + cbn in B. assert (n = 0) by lia. subst n. now rewrite digits_zero.
    + destruct C as [C|C]; [discriminate|]. cbn [pred] in C.
      assert (n <> 0) by (assert (P := N.pow_nonzero 16 (N.of_nat w) ltac:(lia)); lia).
      rewrite digits_0, hex_of_S by assumption. f_equal. apply IH; [lia| |].
      * apply N.div_lt_upper_bound; [lia|]. rewrite <- N.pow_succ_r', <- Nat2N.inj_succ. exact B.
      * destruct w as [|w]; [now left|right]. cbn [pred]. apply N.div_le_lower_bound; [lia|]. rewrite <- N.pow_succ_r', <- Nat2N.inj_succ. exact C.
Qed.
Lemma fmt_4 n : n < UINT_MOD -> fmt_x 4 n = hex_of (width n) n.
Proof.
  unfold UINT_MOD. intros B. unfold fmt_x. rewrite !digits_S.
  assert (E : exists w, width n = (4 + w)%nat /\ (w <= 4)%nat /\ n / 16 / 16 / 16 / 16 < 16 ^ N.of_nat w /\ (w = 0%nat \/ 16 ^ N.of_nat (pred w) <= n / 16 / 16 / 16 / 16)).
  { unfold width. cbn [filter]. change (16 ^ 4) with 65536. change (16 ^ 5) with 1048576. change (16 ^ 6) with 16777216. change (16 ^ 7) with 268435456.
    rewrite !N.div_div by lia. change (16 * 16 * 16 * 16) with 65536. change (16 * (16 * (16 * 16))) with 65536.
    destruct (65536 <=? n) eqn:E4; destruct (1048576 <=? n) eqn:E5; destruct (16777216 <=? n) eqn:E6; destruct (268435456 <=? n) eqn:E7; try (exfalso; lia);
    eexists; (split; [reflexivity|]); cbn [length]; (split; [lia|]); 
    match goal with |- _ < 16 ^ N.of_nat ?w /\ (_ \/ 16 ^ N.of_nat ?v <= _) => let a := eval vm_compute in (16 ^ N.of_nat w) in let b := eval vm_compute in (16 ^ N.of_nat v) in
      change (16 ^ N.of_nat w) with a; change (16 ^ N.of_nat v) with b end;
    (split; [apply N.div_lt_upper_bound; lia|]); first [left; reflexivity | right; apply N.div_le_lower_bound; lia]. }
  destruct E as (w & -> & L & B' & C). cbn [Nat.add]. rewrite !hex_of_S. now rewrite (digits_exact 4 w) by assumption.
Qed.
Lemma fmt_2 n : n < 256 -> fmt_x 2 n = hex_of 2 n.
Proof.
  intros B. unfold fmt_x. rewrite !digits_S, !hex_of_S. assert (n / 16 / 16 = 0) as ->; [|rewrite digits_zero; reflexivity].
  rewrite N.div_div by lia. apply N.div_small. lia.
Qed.
Lemma hex_of_length w n : length (hex_of w n) = w.
Proof. unfold hex_of. now rewrite map_length, rev_length, seq_length. Qed.
Lemma hex_of_nonzero w n : Forall (fun c => c <> 0) (hex_of w n).
Proof. unfold hex_of. apply Forall_forall. intros c H. apply in_map_iff in H as (k & <- & _). assert (X := hex_digit_bounds (n / 16 ^ N.of_nat k mod 16) (N.mod_lt _ 16 ltac:(discriminate))). intros E. rewrite E in X. destruct X as [X _]. apply X. reflexivity. Qed.
Lemma width_bounds n : (4 <= width n <= 8)%nat.
Proof. unfold width. cbn [filter]. repeat destruct (_ <=? n); cbn [length]; lia. Qed.
Lemma offset_text_length o : length (offset_text o) = 5%nat.
Proof. unfold offset_text. rewrite firstn_length, app_length, hex_of_length. cbn [length]. assert (X := width_bounds o). lia. Qed.
Lemma Forall_firstn' {A} (P : A -> Prop) n l : Forall P l -> Forall P (firstn n l).
Proof. revert n. induction l as [|a l IH]; intros [|n] H; cbn; auto. inversion H; subst. constructor; auto. Qed.
Lemma offset_text_nonzero o : Forall (fun c => c <> 0) (offset_text o).
Proof. apply Forall_firstn', Forall_app. split; [apply hex_of_nonzero|]. constructor; [discriminate|constructor]. Qed.

(** ** Buffers *)
Lemma store_ok b at_ l : (at_ + length l <= length b)%nat ->
  exists b', store b at_ l = Ok b' /\ length b' = length b /\ firstn (at_ + length l) b' = firstn at_ b ++ map Some l.
Proof.
  intros L. unfold store. destruct (Nat.ltb_spec (length b) (at_ + length l)) as [X|_]; [lia|]. eexists. split; [reflexivity|]. split.
  - rewrite !app_length, firstn_length, skipn_length, map_length. lia.
  - rewrite app_assoc. rewrite firstn_app. rewrite app_length, firstn_length, map_length.
    replace (at_ + length l - (Nat.min at_ (length b) + length l))%nat with 0%nat by lia. rewrite app_nil_r. apply firstn_all2.
    rewrite app_length, firstn_length, map_length. lia.
Qed.
Lemma string_ok s : forall b, Forall (fun c => c <> 0) s -> firstn (length s + 1) b = map Some (s ++ [0]) -> string_of b = Ok s.
Proof.
  induction s as [|c s IH]; intros b Z H.
  - destruct b as [|x b]; cbn in H; [discriminate|]. assert (x = Some 0) by congruence. subst x. reflexivity.
  - destruct b as [|x b]; cbn in H; [discriminate|]. inversion Z as [|? ? Z1 Z2]; subst. assert (x = Some c) by congruence. subst x.
    assert (firstn (length s + 1) b = map Some (s ++ [0])) by congruence. cbn [string_of]. destruct c as [|c]; [contradiction|]. now rewrite (IH b).
Qed.

(** ** The loop *)
Section Dump.
Variable p : N -> N.
Hypothesis P : forall i, p i < 256.

Definition hexes (o : N) (n : nat) : list N := flat_map (fun c => 32 :: hex_of 2 c) (octets p o n).
Lemma octets_S o n : octets p o (S n) = octets p o n ++ [p (o + N.of_nat n)].
Proof using. clear P. unfold octets. now rewrite seq_S, map_app. Qed.
Lemma octets_length o n : length (octets p o n) = n.
Proof using. clear P. unfold octets. now rewrite map_length, seq_length. Qed.
Lemma hexes_S o n : hexes o (S n) = hexes o n ++ 32 :: hex_of 2 (p (o + N.of_nat n)).
Proof using. clear P. unfold hexes. rewrite octets_S, flat_map_app. cbn [flat_map]. now rewrite app_nil_r. Qed.
Lemma hexes_length o n : length (hexes o n) = (3 * n)%nat.
Proof using. clear P. induction n as [|n IH]; [reflexivity|]. rewrite hexes_S, app_length, IH. cbn [length]. rewrite hex_of_length. lia. Qed.
Lemma hexes_nonzero o n : Forall (fun c => c <> 0) (hexes o n).
Proof using. clear P. induction n as [|n IH]; [constructor|]. rewrite hexes_S. apply Forall_app. split; [exact IH|]. constructor; [discriminate|apply hex_of_nonzero]. Qed.
Lemma visible_nonzero c : visible c <> 0.
Proof using. clear P. unfold visible. destruct ((32 <=? c) && (c <=? 126)) eqn:E; [|discriminate]. apply andb_true_iff in E as [E _]. apply N.leb_le in E. intros ->. apply E. reflexivity. Qed.

(** The buffers hold the first [k] octets of the line at [o] *)
Definition holds (hex ascii : buffer) (o : N) (k : nat) : Prop :=
  length hex = 54%nat /\ length ascii = 17%nat /\
  firstn (5 + 3 * k + 1) hex = map Some ((offset_text o ++ hexes o k) ++ [0]) /\
  firstn (k + 1) ascii = map Some (map visible (octets p o k) ++ [0]).

Lemma put_hex hex o k c : (k < 16)%nat -> length hex = 54%nat -> c < 256 -> c = p (o + N.of_nat k) ->
  firstn (5 + 3 * k) hex = map Some (offset_text o ++ hexes o k) ->
  exists hex', sprintf hex (5 + k * 3) (32 :: fmt_x 2 c) = Ok hex' /\ length hex' = 54%nat /\
    firstn (5 + 3 * S k + 1) hex' = map Some ((offset_text o ++ hexes o (S k)) ++ [0]).
Proof using. clear P.
  intros K L B C F. unfold sprintf. rewrite fmt_2 by exact B.
  assert (Lx : length ((32 :: hex_of 2 c) ++ [0]) = 4%nat) by (cbn [length app]; rewrite app_length, hex_of_length; reflexivity).
  destruct (store_ok hex (5 + k * 3) ((32 :: hex_of 2 c) ++ [0])) as (hex' & E & L' & F'); [rewrite Lx; lia|].
  exists hex'. split; [exact E|]. split; [congruence|]. rewrite Lx in F'.
  replace (5 + 3 * S k + 1)%nat with (5 + k * 3 + 4)%nat by lia. rewrite F'. replace (5 + k * 3)%nat with (5 + 3 * k)%nat by lia. rewrite F, hexes_S, <- C, <- map_app.
  f_equal. rewrite <- !app_assoc. reflexivity.
Qed.
Lemma put_ascii ascii o k c : (k < 16)%nat -> length ascii = 17%nat -> c = p (o + N.of_nat k) ->
  firstn k ascii = map Some (map visible (octets p o k)) ->
  exists a1 a2, store ascii k [if (c <? 32) || (126 <? c) then 46 else c] = Ok a1 /\ store a1 (k + 1) [0] = Ok a2 /\ length a2 = 17%nat /\
    firstn (S k + 1) a2 = map Some (map visible (octets p o (S k)) ++ [0]).
Proof using. clear P.
  intros K L C F. set (v := if _ || _ then 46 else c). assert (V : v = visible c).
  { unfold v, visible. rewrite !N.leb_antisym. destruct (c <? 32), (126 <? c); reflexivity. }
  destruct (store_ok ascii k [v]) as (a1 & E1 & L1 & F1); [cbn [length]; lia|].
  destruct (store_ok a1 (k + 1) [0]) as (a2 & E2 & L2 & F2); [cbn [length]; lia|].
  exists a1, a2. split; [exact E1|]. split; [exact E2|]. split; [congruence|]. cbn [length] in F1, F2.
  replace (S k + 1)%nat with (k + 1 + 1)%nat by lia. rewrite F2, F1, F, octets_S, <- C, V, !map_app. reflexivity.
Qed.
Lemma firstn_less {A} (l : list A) m n x y : (m <= n)%nat -> firstn n l = x ++ y -> length x = m -> firstn m l = x.
Proof using. clear P. intros L E X. replace m with (Nat.min m n) by lia. rewrite <- firstn_firstn, E, <- X. rewrite firstn_app, firstn_all, Nat.sub_diag. cbn. apply app_nil_r. Qed.

Lemma firstn_prefix (l : buffer) n a b m : firstn n l = map Some (a ++ b) -> (m <= length a)%nat -> (m <= n)%nat -> firstn m l = map Some (firstn m a).
Proof using. clear P.
  intros E L1 L2. replace m with (Nat.min m n) at 1 by lia. rewrite <- firstn_firstn, E, firstn_map, firstn_app.
  replace (m - length a)%nat with 0%nat by lia. cbn [firstn]. now rewrite app_nil_r.
Qed.

(** The strings *)
Lemma holds_strings hex ascii o : holds hex ascii o 16 ->
  string_of hex = Ok (fst (line p o 16)) /\ string_of ascii = Ok (snd (line p o 16)).
Proof using. clear P.
  intros (L1 & L2 & H1 & H2). unfold line. cbn [fst snd]. change (3 * (16 - 16))%nat with 0%nat. cbn [repeat]. rewrite app_nil_r. split.
  - apply string_ok; [apply Forall_app; split; [apply offset_text_nonzero|apply hexes_nonzero]|].
    rewrite app_length, offset_text_length. change (flat_map _ (octets p o 16)) with (hexes o 16). rewrite hexes_length. exact H1.
  - apply string_ok; [apply Forall_map, Forall_forall; intros; apply visible_nonzero|]. rewrite map_length, octets_length. exact H2.
Qed.
Lemma ascii_string hex ascii o k : holds hex ascii o k -> string_of ascii = Ok (map visible (octets p o k)).
Proof using. clear P.
  intros (L1 & L2 & H1 & H2). apply string_ok; [apply Forall_map, Forall_forall; intros; apply visible_nonzero|]. rewrite map_length, octets_length. exact H2.
Qed.

(** The lines that are complete before the one at [o] *)
Definition lines_before (o : N) : list (list N * list N) := map (fun j => line p (16 * N.of_nat j) 16) (seq 0 (N.to_nat (o / 16))).
Definition state_at (base : list (list N * list N)) (i : N) (hex ascii : buffer) (out : list (list N * list N)) : Prop :=
  if i =? 0 then length hex = 54%nat /\ length ascii = 17%nat /\ out = base
  else let o := 16 * ((i - 1) / 16) in holds hex ascii o (N.to_nat (i - o)) /\ out = base ++ lines_before o.

Lemma octet_step base i hex ascii out : i < UINT_MOD -> state_at base i hex ascii out ->
  exists hex' ascii' out', dump_octet p i hex ascii out = Ok (hex', ascii', out') /\ state_at base (i + 1) hex' ascii' out'.
Proof using P.
  intros B St. unfold dump_octet. set (o := 16 * (i / 16)). set (k := N.to_nat (i mod 16)).
  assert (DM := N.div_mod i 16 ltac:(lia)). assert (ML := N.mod_lt i 16 ltac:(lia)).
  assert (K : (k < 16)%nat) by (unfold k; lia). assert (Oi : o + N.of_nat k = i) by (unfold o, k; lia).
  assert (H0 : exists hex0 out0,
    (if i mod 16 =? 0 then
       do out <- (if i =? 0 then Ok out else do h <- string_of hex; do a <- string_of ascii; Ok (out ++ [(h, a)]));
       do hex <- sprintf hex 0 (fmt_x 4 i ++ [32]); Ok (hex, out)
     else Ok (hex, out)) = Ok (hex0, out0) /\ length hex0 = 54%nat /\ length ascii = 17%nat /\
     firstn (5 + 3 * k) hex0 = map Some (offset_text o ++ hexes o k) /\ firstn k ascii = map Some (map visible (octets p o k)) /\ out0 = base ++ lines_before o).
  { destruct (N.eqb_spec (i mod 16) 0) as [M|M].
    - assert (k = 0%nat) as -> by (unfold k; lia). assert (o = i) by (unfold o; lia).
      assert (S1 : exists out1, (if i =? 0 then Ok out else do h <- string_of hex; do a <- string_of ascii; Ok (out ++ [(h, a)])) = Ok out1 /\
         length hex = 54%nat /\ length ascii = 17%nat /\ out1 = base ++ lines_before i).
      { unfold state_at in St. destruct (N.eqb_spec i 0) as [Z|Z].
        - destruct St as (L1 & L2 & ->). exists base. split; [reflexivity|]. split; [exact L1|]. split; [exact L2|]. rewrite Z. symmetry. apply app_nil_r.
        - destruct St as (Hs & Ho). set (o1 := 16 * ((i - 1) / 16)) in *.
          assert (Q : (i - 1) / 16 = i / 16 - 1). { symmetry. apply (N.div_unique _ _ _ 15); lia. }
          assert (N.to_nat (i - o1) = 16%nat) as K1 by (unfold o1; rewrite Q; lia). rewrite K1 in Hs.
          destruct (holds_strings _ _ _ Hs) as [-> ->]. cbn [bind]. eexists. split; [reflexivity|]. destruct Hs as (L1 & L2 & _). split; [exact L1|]. split; [exact L2|].
          rewrite Ho, <- app_assoc. f_equal. unfold lines_before. unfold o1 at 1. rewrite N.mul_comm, N.div_mul by lia. rewrite Q.
          replace (N.to_nat (i / 16)) with (S (N.to_nat (i / 16 - 1))) by lia. rewrite seq_S, map_app. f_equal. cbn [map]. cbn [Nat.add].
          replace (16 * N.of_nat (N.to_nat (i / 16 - 1))) with o1 by (unfold o1; rewrite Q; lia). now destruct (line p o1 16). }
      destruct S1 as (out1 & -> & L1 & L2 & ->). cbn [bind]. unfold sprintf.
      assert (W := width_bounds i). rewrite fmt_4 by lia.
      destruct (store_ok hex 0 ((hex_of (width i) i ++ [32]) ++ [0])) as (hex0 & -> & L0 & F0); [rewrite !app_length, hex_of_length; cbn [length]; lia|].
      cbn [bind]. exists hex0, (base ++ lines_before i). split; [reflexivity|]. split; [congruence|]. split; [exact L2|]. rewrite H. split; [|split; reflexivity].
      change (hexes i 0) with (@nil N). rewrite app_nil_r. change (5 + 3 * 0)%nat with 5%nat. unfold offset_text.
      eapply firstn_prefix; [exact F0|rewrite app_length, hex_of_length; cbn [length]; lia|rewrite !app_length, hex_of_length; cbn [length]; lia].
    - assert (i <> 0) by (intros ->; apply M; reflexivity). unfold state_at in St. rewrite (proj2 (N.eqb_neq _ _) H) in St. destruct St as (Hs & Ho).
      assert (Q : (i - 1) / 16 = i / 16). { symmetry. apply (N.div_unique _ _ _ (i mod 16 - 1)); lia. }
      rewrite Q in Hs, Ho. fold o in Hs, Ho. replace (N.to_nat (i - o)) with k in Hs by lia. destruct Hs as (L1 & L2 & H1 & H2).
      exists hex, out. split; [reflexivity|]. split; [exact L1|]. split; [exact L2|]. split; [|split; [|exact Ho]].
      + rewrite map_app in H1. eapply firstn_less; [|exact H1|]; [lia|]. rewrite map_length, app_length, offset_text_length, hexes_length. lia.
      + rewrite map_app in H2. eapply firstn_less; [|exact H2|]; [lia|]. now rewrite !map_length, octets_length. }
  destruct H0 as (hex0 & out0 & -> & L1 & L2 & F1 & F2 & ->). cbn [bind].
  destruct (put_hex hex0 o k (p i) K L1 (P i) ltac:(now rewrite Oi) F1) as (hex' & -> & L1' & F1'). cbn [bind].
  destruct (put_ascii ascii o k (p i) K L2 ltac:(now rewrite Oi) F2) as (a1 & a2 & -> & A2 & L2' & F2'). cbn [bind]. rewrite A2. cbn [bind].
  do 3 eexists. split; [reflexivity|]. unfold state_at. destruct (N.eqb_spec (i + 1) 0) as [X|_]; [lia|].
  replace (i + 1 - 1) with i by lia. fold o. replace (N.to_nat (i + 1 - o)) with (S k) by lia. split; [|reflexivity].
  split; [exact L1'|]. split; [exact L2'|]. split; [exact F1'|exact F2'].
Qed.

Lemma loop_ok len : len < UINT_MOD -> forall fuel i hex ascii out, (N.to_nat (len - i) <= fuel)%nat -> i <= len -> state_at [] i hex ascii out ->
  exists hex' ascii' out', dump_loop p len fuel i hex ascii out = Ok (len, hex', ascii', out') /\ state_at [] len hex' ascii' out'.
Proof using P.
  intros B. induction fuel as [|fuel IH]; intros i hex ascii out F L St; cbn [dump_loop]; destruct (N.ltb_spec i len) as [X|X].
  - lia.
  - assert (i = len) by lia. subst i. eauto.
  - destruct (octet_step [] i hex ascii out ltac:(lia) St) as (h & a & ou & -> & St'). cbn [bind]. rewrite N.mod_small by lia. apply IH; [lia|lia|exact St'].
  - assert (i = len) by lia. subst i. eauto.
Qed.

Lemma loop_endless len : UINT_MOD <= len -> forall fuel base i hex ascii out, i < UINT_MOD -> state_at base i hex ascii out ->
  dump_loop p len fuel i hex ascii out = Fuel.
Proof using P.
  intros B. induction fuel as [|fuel IH]; intros base i hex ascii out L St; cbn [dump_loop]; destruct (N.ltb_spec i len) as [X|X]; [reflexivity|lia| |lia].
  destruct (octet_step base i hex ascii out L St) as (h & a & ou & -> & St'). cbn [bind].
  destruct (N.lt_ge_cases (i + 1) UINT_MOD) as [C|C].
  - rewrite N.mod_small by exact C. apply (IH base); [exact C|exact St'].
  - assert (i + 1 = UINT_MOD) as E by lia. rewrite E in *. rewrite N.mod_same by (unfold UINT_MOD; lia). apply (IH ou); [unfold UINT_MOD; lia|].
    unfold state_at in St' |- *. destruct (N.eqb_spec UINT_MOD 0) as [Y|_]; [unfold UINT_MOD in Y; lia|]. destruct St' as ((L1 & L2 & _) & _).
    split; [exact L1|]. split; [exact L2|reflexivity].
Qed.
Theorem endless len fuel : UINT_MOD <= len -> hexdump p len fuel = Fuel.
Proof using P.
  intros B. unfold hexdump. destruct (N.eqb_spec len 0) as [Z|_]; [unfold UINT_MOD in B; lia|].
  rewrite (loop_endless len B fuel []); [reflexivity|unfold UINT_MOD; lia|]. unfold state_at. cbn [N.eqb]. rewrite !repeat_length. auto.
Qed.

(** Padding *)
Lemma pad_ok o : forall fuel k hex, (16 - k <= fuel)%nat -> (1 <= k <= 16)%nat -> o mod 16 = 0 -> o + 16 <= UINT_MOD -> length hex = 54%nat ->
  forall s, length s = (5 + 3 * k)%nat -> firstn (5 + 3 * k + 1) hex = map Some (s ++ [0]) ->
  exists hex', dump_pad fuel ((o + N.of_nat k) mod UINT_MOD) hex = Ok hex' /\ firstn 54 hex' = map Some ((s ++ repeat 32 (3 * (16 - k))) ++ [0]).
Proof using p. clear P.
  assert (U16 : forall a, (a mod UINT_MOD) mod 16 = a mod 16).
  { intros a. unfold UINT_MOD. change 4294967296 with (16 * 268435456). rewrite N.mod_mul_r by lia. rewrite N.add_mod, (N.mul_comm 16), N.mod_mul, N.add_0_r, !N.mod_mod by lia. reflexivity. }
  induction fuel as [|fuel IH]; intros k hex F K O B L s Ls H; cbn [dump_pad]; rewrite U16.
  - assert (k = 16%nat) by lia. subst k. rewrite N.add_mod, O by lia. change ((0 + N.of_nat 16 mod 16) mod 16 =? 0) with true. exists hex. split; [reflexivity|].
    change (3 * (16 - 16))%nat with 0%nat. cbn [repeat]. rewrite app_nil_r. exact H.
  - destruct (N.eqb_spec ((o + N.of_nat k) mod 16) 0) as [M|M].
    + assert (k = 16%nat).
      { rewrite N.add_mod, O in M by lia. rewrite N.add_0_l, N.mod_mod in M by lia. destruct (Nat.eq_dec k 16) as [|Nk]; [assumption|]. rewrite N.mod_small in M by lia. lia. }
      subst k. exists hex. split; [reflexivity|]. change (3 * (16 - 16))%nat with 0%nat. cbn [repeat]. rewrite app_nil_r. exact H.
    + assert (Km : (o + N.of_nat k) mod 16 = N.of_nat k).
      { rewrite N.add_mod, O by lia. rewrite N.add_0_l, N.mod_mod by lia. apply N.mod_small. assert (k <> 16%nat); [|lia]. intros ->. apply M. rewrite N.add_mod, O by lia. reflexivity. }
      assert (K16 : k <> 16%nat) by (intros ->; apply M; rewrite N.add_mod, O by lia; reflexivity).
      rewrite Km, Nat2N.id. unfold sprintf.
      destruct (store_ok hex (5 + k * 3) ([32; 32; 32] ++ [0])) as (hex1 & -> & L1 & F1); [cbn [length app]; lia|]. cbn [bind].
      assert (U : ((o + N.of_nat k) mod UINT_MOD + 1) mod UINT_MOD = (o + N.of_nat (S k)) mod UINT_MOD).
      { rewrite N.add_mod_idemp_l by (unfold UINT_MOD; lia). f_equal. lia. }
      rewrite U. cbn [length app] in F1. destruct (IH (S k) hex1) with (s := s ++ [32; 32; 32]) as (hex' & E & R); try assumption; try lia.
      * rewrite app_length, Ls. cbn [length]. clear. lia.
      * replace (5 + 3 * S k + 1)%nat with (5 + k * 3 + 4)%nat by (clear; lia). rewrite F1. replace (5 + k * 3)%nat with (5 + 3 * k)%nat by (clear; lia).
        rewrite map_app in H. assert (H' : firstn (5 + 3 * k) hex = map Some s) by (eapply firstn_less; [|exact H|now rewrite map_length]; clear; lia).
        rewrite H', <- app_assoc, !map_app. reflexivity.
      * exists hex'. split; [exact E|]. rewrite R. f_equal. f_equal. rewrite <- app_assoc. f_equal. change [32; 32; 32] with (repeat 32 3). rewrite <- repeat_app. f_equal. clear - K K16. lia.
Qed.

Theorem dump_ok len fuel : len < UINT_MOD -> (N.to_nat len <= fuel)%nat -> hexdump p len fuel = Ok (dumped p len).
Proof using P.
  intros B F. unfold hexdump. destruct (N.eqb_spec len 0) as [->|Z]; [reflexivity|].
  destruct (loop_ok len B fuel 0 (repeat None (16 * 3 + 6)) (repeat None 17) []) as (hex & ascii & out & -> & St); [lia|lia|unfold state_at; cbn; auto|].
  cbn [bind]. unfold state_at in St. rewrite (proj2 (N.eqb_neq _ _) Z) in St. set (q := (len - 1) / 16) in *. destruct St as (Hs & ->). cbn [app].
  assert (DM := N.div_mod (len - 1) 16 ltac:(lia)). assert (ML := N.mod_lt (len - 1) 16 ltac:(lia)). fold q in DM.
  set (o := 16 * q) in *. set (k := N.to_nat (len - o)) in *. assert (K : (1 <= k <= 16)%nat) by (unfold k; lia).
  assert (Ob : o + 16 <= UINT_MOD) by (unfold UINT_MOD in *; unfold o in *; lia).
  assert (O16 : o mod 16 = 0) by (unfold o; rewrite N.mul_comm; apply N.mod_mul; lia).
  assert (A := ascii_string _ _ _ _ Hs). destruct Hs as (L1 & L2 & H1 & H2).
  destruct (pad_ok o 16 k hex) with (s := offset_text o ++ hexes o k) as (hex' & E & R); try assumption; try lia.
  - rewrite app_length, offset_text_length, hexes_length. lia.
  - replace ((o + N.of_nat k) mod UINT_MOD) with len in E by (rewrite N.mod_small; unfold k; lia). rewrite E. cbn [bind].
    rewrite (string_ok ((offset_text o ++ hexes o k) ++ repeat 32 (3 * (16 - k)))).
    + cbn [bind]. rewrite A. cbn [bind]. f_equal. unfold dumped, lines_before. unfold o at 1. rewrite N.mul_comm, N.div_mul by lia.
      assert (Q : (len + 15) / 16 = q + 1). { symmetry. apply (N.div_unique _ _ _ ((len - 1) mod 16)); lia. }
      rewrite Q. replace (N.to_nat (q + 1)) with (S (N.to_nat q)) by lia. rewrite seq_S, map_app. f_equal.
      * apply map_ext_in. intros j J. apply in_seq in J. cbv zeta. f_equal. unfold o in *. lia.
      * cbn [map Nat.add]. cbv zeta. rewrite N2Nat.id. fold o. replace (N.to_nat (N.min 16 (len - o))) with k by (unfold k; lia).
        unfold line. rewrite <- app_assoc. reflexivity.
    + apply Forall_app. split; [apply Forall_app; split; [apply offset_text_nonzero|apply hexes_nonzero]|]. apply Forall_forall. intros c C. apply repeat_spec in C. subst c. discriminate.
    + rewrite !app_length, offset_text_length, hexes_length, repeat_length. replace (5 + 3 * k + 3 * (16 - k) + 1)%nat with 54%nat by lia. exact R.
Qed.
End Dump.

(** ** What the dump says *)
Lemma app_eq_app_len {A} (a b c d : list A) : a ++ b = c ++ d -> length a = length c -> a = c /\ b = d.
Proof.
  revert c. induction a as [|x a IH]; intros [|y c] E L; cbn in E, L; try discriminate; [auto|].
  destruct (IH c) as [-> ->]; [congruence|lia|]. split; [congruence|reflexivity].
Qed.
Lemma hex_digit_inj a b : a < 16 -> b < 16 -> hex_digit a = hex_digit b -> a = b.
Proof. intros A B. rewrite <- !digit_hex by assumption. unfold digit. destruct (N.ltb_spec a 10), (N.ltb_spec b 10); lia. Qed.
Lemma hex_of_inj w : forall a b, a < 16 ^ N.of_nat w -> b < 16 ^ N.of_nat w -> hex_of w a = hex_of w b -> a = b.
Proof.
  induction w as [|w IH]; intros a b A B E.
  - cbn in A, B. lia.
  - rewrite !hex_of_S in E. apply app_inj_tail in E as [E1 E2]. apply hex_digit_inj in E2; try (apply N.mod_lt; discriminate).
    rewrite Nat2N.inj_succ, N.pow_succ_r' in A, B. apply IH in E1; try (apply N.div_lt_upper_bound; [discriminate|assumption]).
    rewrite (N.div_mod a 16), (N.div_mod b 16) by discriminate. now rewrite E1, E2.
Qed.
Lemma hexes_inj p p' o n : (forall i, p i < 256) -> (forall i, p' i < 256) ->
  hexes p o n = hexes p' o n -> forall k, (k < n)%nat -> p (o + N.of_nat k) = p' (o + N.of_nat k).
Proof.
  intros P P'. induction n as [|n IH]; intros E k K; [lia|]. rewrite !hexes_S in E.
  apply app_eq_app_len in E as [E1 E2]; [|now rewrite !hexes_length].
  destruct (Nat.eq_dec k n) as [->|Nk].
  - apply (hex_of_inj 2); [apply P|apply P'|congruence].
  - apply IH; [exact E1|lia].
Qed.
Theorem dump_inj p p' len : (forall i, p i < 256) -> (forall i, p' i < 256) -> dumped p len = dumped p' len ->
  forall i, i < len -> p i = p' i.
Proof.
  intros P P' E i L. assert (DM := N.div_mod i 16 ltac:(lia)). assert (ML := N.mod_lt i 16 ltac:(lia)).
  set (j := N.to_nat (i / 16)). unfold dumped in E.
  assert (J : In j (seq 0 (N.to_nat ((len + 15) / 16)))).
  { apply in_seq. split; [lia|]. assert (i / 16 + 1 <= (len + 15) / 16) by (apply N.div_le_lower_bound; lia). unfold j. lia. }
  assert (El := ext_in_map E j J). cbv zeta beta in El. replace (16 * N.of_nat j) with (16 * (i / 16)) in El by (unfold j; lia).
  apply (f_equal fst) in El. unfold line in El. cbn [fst] in El. apply app_inv_head in El.
  set (n := N.to_nat (N.min 16 (len - 16 * (i / 16)))) in El. apply app_inv_tail in El.
  assert (X := hexes_inj p p' (16 * (i / 16)) n P P' El (N.to_nat (i mod 16)) ltac:(unfold n; lia)).
  rewrite N2Nat.id, <- DM in X. exact X.
Qed.
Lemma width_4 o : o < 65536 -> width o = 4%nat.
Proof. intros H. unfold width. cbn [filter]. change (16 ^ 4) with 65536. change (16 ^ 5) with 1048576. change (16 ^ 6) with 16777216. change (16 ^ 7) with 268435456.
  destruct (N.leb_spec 65536 o); [lia|]. destruct (N.leb_spec 1048576 o); [lia|]. destruct (N.leb_spec 16777216 o); [lia|]. destruct (N.leb_spec 268435456 o); [lia|]. reflexivity. Qed.
Theorem offset_exact o : o < 65536 -> offset_text o = hex_of 4 o ++ [32].
Proof. intros H. unfold offset_text. rewrite width_4 by exact H. apply firstn_all2. rewrite app_length, hex_of_length. cbn [length]. lia. Qed.
Theorem offset_inj o o' : o < 65536 -> o' < 65536 -> offset_text o = offset_text o' -> o = o'.
Proof. intros A B E. rewrite !offset_exact in E by assumption. apply app_inj_tail in E as [E _]. apply (hex_of_inj 4); assumption. Qed.
