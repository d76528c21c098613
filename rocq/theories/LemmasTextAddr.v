(** Reading back printed IPv6 addresses, networks as text. *)
From Coq Require Import NArith ZArith List Bool Arith Lia ZifyBool ZifyNat ZifyN.
From Verif Require Import Base LemmasBase ModelAddress LemmasAddress ModelCountryCode ModelNetwork LemmasNetwork
  ModelText SpecText LemmasText.
Import ListNotations.
Open Scope N_scope.

Lemma pton6_start w rest : w < 65536 ->
  pton6 (hex w ++ rest) = pton6_loop (hex w ++ rest) (hex w ++ rest) [] None 0 0.
Proof.
  intros H. assert (E : exists c s, hex w = c :: s /\ c <> COLON).
  { rewrite hex_hh. destruct (hh_spec w H) as (_ & F & L). destruct (hh w) as [|d l]; [cbn in L; lia|].
    inversion F; subst. exists (digit_char d), (map digit_char l). split; auto.
    unfold digit_char, COLON. destruct (N.ltb_spec d 10); lia. }
  destruct E as (c & s & E & C). rewrite E. cbn [app pton6]. now replace (c =? COLON) with false by lia.
Qed.

Lemma pton6_empty tok tmp colon : pton6_loop [] tok tmp colon 0 0 = pton6_end tmp colon 0 0.
Proof. reflexivity. Qed.

Lemma pton6_end_full tmp colon v c : length tmp = 16%nat -> colon = None \/ colon = Some c ->
  pton6_end tmp colon 0 v = match colon with None => Some tmp | Some _ => None end.
Proof. intros L [->| ->]; unfold pton6_end; cbn [Nat.ltb Nat.leb]; rewrite L; reflexivity. Qed.

Lemma pton6_end_colon tmp c v : (length tmp < 16)%nat ->
  pton6_end tmp (Some c) 0 v = Some (firstn c tmp ++ repeat 0 (16 - length tmp) ++ skipn c tmp).
Proof. intros L. unfold pton6_end; cbn [Nat.ltb Nat.leb]. now replace (length tmp =? 16)%nat with false by lia. Qed.

Lemma hex_nonempty w rest : w < 65536 -> hex w ++ rest <> [].
Proof.
  intros H. rewrite hex_hh. destruct (hh_spec w H) as (_ & _ & L). destruct (hh w); [cbn in L; lia|discriminate].
Qed.

Lemma hex_ne w : w < 65536 -> hex w <> [].
Proof. intros H. rewrite <- (app_nil_r (hex w)). now apply hex_nonempty. Qed.

Lemma octs_word x y : x < 256 -> y < 256 -> octs (x * 256 + y) = [x; y].
Proof.
  intros X Y. unfold octs. rewrite N.div_add_l, N.div_small, N.add_0_r, N.mod_small by lia.
  rewrite N.add_comm, N.mod_add, N.mod_small by lia. reflexivity.
Qed.

Lemma ntop4_ne l : ntop4 l <> [].
Proof. unfold ntop4. intros H. apply app_eq_nil in H as [_ H]. discriminate. Qed.

Lemma octs_octets x y : octets (octs x ++ octs y).
Proof.
  unfold octs. cbn [app]. apply octets4. repeat split; apply N.mod_lt; lia.
Qed.

Lemma pton6_colons rest : pton6 (COLON :: COLON :: rest) = pton6_loop (COLON :: rest) (COLON :: rest) [] None 0 0.
Proof. reflexivity. Qed.

Ltac group :=
  first [ rewrite pton6_group; [cbn [app]|solve [auto]|solve [apply hex_nonempty; auto| apply hex_ne; auto| discriminate]|cbn [length octs app]; lia]
        | rewrite pton6_colon; cbn [length app] ].

Lemma read_words w0 w1 w2 w3 w4 w5 w6 w7 best :
  w0 < 65536 -> w1 < 65536 -> w2 < 65536 -> w3 < 65536 -> w4 < 65536 -> w5 < 65536 -> w6 < 65536 -> w7 < 65536 ->
  let ws := [w0; w1; w2; w3; w4; w5; w6; w7] in
  let a := flat_map octs ws in
  okrun ws best -> (forall b l, best = Some (b, l) -> (2 <= l)%nat) ->
  pton6 (ntop6_loop a ws best 0 8 ++
    (match best with Some (b, l) => if (b + l =? 8)%nat then [COLON] else [] | None => [] end)) = Some a.
Proof.
  intros H0 H1 H2 H3 H4 H5 H6 H7 ws a R B.
  destruct best as [[b l]|].
  - specialize (B _ _ eq_refl). destruct R as [R Z]. cbn [ws length] in R.
    assert (Cb : (b = 0 \/ b = 1 \/ b = 2 \/ b = 3 \/ b = 4 \/ b = 5 \/ b = 6)%nat) by lia.
    assert (Cl : (l = 2 \/ l = 3 \/ l = 4 \/ l = 5 \/ l = 6 \/ l = 7 \/ l = 8)%nat) by lia.
    assert (Q : forall i w, nth_error ws i = Some w -> (b <= i < b + l)%nat -> w = 0).
    { intros i w E I. rewrite <- (Z i I). now apply nth_error_nth with (d := 0) in E. }
    clear Z.
    destruct Cb as [->|[->|[->|[->|[->|[->| ->]]]]]]; destruct Cl as [->|[->|[->|[->|[->|[->| ->]]]]]]; try lia.
    all: try (pose proof (Q 0%nat _ eq_refl ltac:(lia)); subst w0).
    all: try (pose proof (Q 1%nat _ eq_refl ltac:(lia)); subst w1).
    all: try (pose proof (Q 2%nat _ eq_refl ltac:(lia)); subst w2).
    all: try (pose proof (Q 3%nat _ eq_refl ltac:(lia)); subst w3).
    all: try (pose proof (Q 4%nat _ eq_refl ltac:(lia)); subst w4).
    all: try (pose proof (Q 5%nat _ eq_refl ltac:(lia)); subst w5).
    all: try (pose proof (Q 6%nat _ eq_refl ltac:(lia)); subst w6).
    all: try (pose proof (Q 7%nat _ eq_refl ltac:(lia)); subst w7).
    all: clear Q B R; subst a ws.
    all: cbn [ntop6_loop in_run run_base andb Nat.eqb Nat.leb Nat.ltb Nat.add ipv4_tail nth orb app].
    all: rewrite ?app_nil_r.
    all: try match goal with |- context [?w =? 65535] => destruct (w =? 65535) eqn:? end.
    all: cbn [app]; repeat (rewrite <- app_assoc; cbn [app]).
    all: first [rewrite pton6_colons | rewrite pton6_start by auto].
    all: repeat group.
    all: try (rewrite pton6_last by (auto; cbn; lia)).
    all: rewrite ?pton6_empty.
    all: try (rewrite pton6_end_colon by (cbn; lia); reflexivity).
    all: match goal with |- context [ntop4 ?t] => change t with (octs w6 ++ octs w7) end.
    + rewrite pton6_group; [cbn [app]|auto|apply ntop4_ne|cbn; lia].
      destruct (pton6_quad (octs w6 ++ octs w7) (octs w5) (Some 0%nat)) as [v E]; [reflexivity|apply octs_octets|cbn; lia|].
      rewrite E. rewrite pton6_end_colon by (cbn; lia). reflexivity.
    + destruct (pton6_quad (octs w6 ++ octs w7) [] (Some 0%nat)) as [v E]; [reflexivity|apply octs_octets|cbn; lia|].
      rewrite E. rewrite pton6_end_colon by (cbn; lia). reflexivity.
  - subst ws. cbn [ntop6_loop in_run andb Nat.eqb ipv4_tail nth]. rewrite ?app_nil_r. cbn [app].
    rewrite pton6_start by auto. do 7 group. rewrite pton6_last by (auto; cbn; lia).
    rewrite (pton6_end_full _ _ _ 0%nat) by auto. reflexivity.
Qed.

Lemma words_octs l : forall k, length l = (2 * k)%nat -> octets l ->
  flat_map octs (words l) = l /\ Forall (fun w => w < 65536) (words l) /\ length (words l) = k.
Proof.
  intros k. revert l. induction k as [|k IH]; intros l L O.
  - destruct l; [|discriminate]. repeat split; constructor.
  - destruct l as [|x [|y l]]; cbn [length] in L; try lia.
    inversion O as [|? ? Hx O1]; subst. inversion O1 as [|? ? Hy O2]; subst. unfold octet_ok in *.
    destruct (IH l ltac:(lia) O2) as (A & B & C). cbn [words flat_map length]. rewrite A, C, octs_word by auto.
    split; auto. split; auto. constructor; auto. lia.
Qed.

Lemma pton6_ntop6 a : wf a -> pton6 (ntop6 a) = Some a.
Proof.
  intros [L O]. destruct (words_octs a 8 L O) as (A & B & C). unfold ntop6.
  destruct (best_run_ok (words a)) as [R1 R2].
  destruct (words a) as [|w0 [|w1 [|w2 [|w3 [|w4 [|w5 [|w6 [|w7 [|]]]]]]]]]; try discriminate C.
  rewrite Forall_forall in B.
  assert (R := read_words w0 w1 w2 w3 w4 w5 w6 w7 (best_run [w0; w1; w2; w3; w4; w5; w6; w7])).
  cbv zeta in R. rewrite A in R. apply R; auto; apply B; cbn; auto 12.
Qed.

(** length and characters of printed addresses *)
Lemma dec_octet_length x : x < 256 -> (length (dec x) <= 3)%nat.
Proof. intros H. apply (dec_length 2); [|lia]. cbn. lia. Qed.

Lemma nth_octet l i : octets l -> nth i l 0 < 256.
Proof. apply octets_nth. Qed.

Lemma ntop4_length l : octets l -> (length (ntop4 l) <= 15)%nat.
Proof.
  intros O. unfold ntop4. repeat (rewrite app_length; cbn [length]).
  pose proof (dec_octet_length _ (octets_nth l 0 O)). pose proof (dec_octet_length _ (octets_nth l 1 O)).
  pose proof (dec_octet_length _ (octets_nth l 2 O)). pose proof (dec_octet_length _ (octets_nth l 3 O)). lia.
Qed.

Lemma hex_word_length w : w < 65536 -> (length (hex w) <= 4)%nat.
Proof. intros H. apply (hex_length 3); [|lia]. exact H. Qed.

Lemma ntop6_loop_length a ws best n : forall i, ipv4_tail best ws = false -> (forall j, nth j ws 0 < 65536) ->
  (length (ntop6_loop a ws best i n) <= 5 * n)%nat.
Proof.
  induction n as [|n IH]; intros i T W; cbn [ntop6_loop]; [cbn; lia|].
  specialize (IH (S i) T W). destruct (in_run best i).
  - rewrite app_length. destruct (run_base best i); cbn [length]; lia.
  - rewrite T, andb_false_r, !app_length. pose proof (hex_word_length _ (W i)). destruct (i =? 0)%nat; cbn [length]; lia.
Qed.

Lemma words_nth a j : wf a -> nth j (words a) 0 < 65536.
Proof.
  intros [L O]. destruct (words_octs a 8 L O) as (_ & B & C). destruct (Nat.lt_ge_cases j 8).
  - rewrite Forall_forall in B. apply B. apply nth_In. lia.
  - rewrite nth_overflow by lia. lia.
Qed.

Lemma ntop6_length a : wf a -> (length (ntop6 a) <= 41)%nat.
Proof.
  intros W. unfold ntop6. rewrite app_length.
  assert (E : (length (match best_run (words a) with Some (b, l) => if (b + l =? 8)%nat then [COLON] else [] | None => [] end) <= 1)%nat).
  { destruct (best_run (words a)) as [[b l]|]; [destruct (b + l =? 8)%nat|]; cbn; lia. }
  destruct (ipv4_tail (best_run (words a)) (words a)) eqn:T.
  - assert (G : (length (ntop6_loop a (words a) (best_run (words a)) 0 8) <= 22)%nat); [|lia].
    pose proof (words_nth a 5 W) as W5. assert (O : octets (skipn 12 a)) by (apply octets_skipn; apply W).
    pose proof (ntop4_length _ O) as L4. pose proof (hex_word_length _ W5) as L5.
    pose proof T as T'. unfold ipv4_tail in T'.
    destruct (best_run (words a)) as [[[|b] l]|]; try discriminate.
    assert (C : l = 6%nat \/ l = 5%nat) by lia.
    destruct C as [-> | ->]; cbn [ntop6_loop in_run run_base Nat.leb Nat.ltb Nat.add andb Nat.eqb app]; rewrite T;
      cbn [length]; repeat (rewrite app_length; cbn [length]); lia.
  - pose proof (ntop6_loop_length a (words a) (best_run (words a)) 8 0 T (fun j => words_nth a j W)). lia.
Qed.

(** no slash in it *)
Lemma digit_noslash d : d < 16 -> digit_char d <> SLASH.
Proof. intros H. unfold digit_char, SLASH. destruct (d <? 10) eqn:E; lia. Qed.

Lemma hex_noslash w : w < 65536 -> noslash (hex w).
Proof.
  intros H. rewrite hex_hh. destruct (hh_spec w H) as (_ & F & _). unfold noslash. rewrite Forall_map.
  eapply Forall_impl; [|exact F]. intros d D. now apply digit_noslash.
Qed.

Lemma dec_noslash x : x < 2 ^ 32 -> noslash (dec x).
Proof.
  intros H. rewrite dec_dd by auto. destruct (dd_spec x H) as (_ & F & _). unfold noslash. rewrite Forall_map.
  eapply Forall_impl; [|exact F]. intros d D. unfold SLASH. cbn beta in *. lia.
Qed.

Lemma ntop4_noslash l : octets l -> noslash (ntop4 l).
Proof.
  intros O. unfold ntop4, noslash.
  assert (D : forall i, Forall (fun c => c <> SLASH) (dec (nth i l 0))).
  { intros i. apply dec_noslash. pose proof (octets_nth l i O). lia. }
  repeat (apply Forall_app; split; [auto|]; try (constructor; [discriminate|])). auto.
Qed.

Lemma ntop6_loop_noslash a ws best n : forall i, wf a -> (forall j, nth j ws 0 < 65536) ->
  noslash (ntop6_loop a ws best i n).
Proof.
  unfold noslash. induction n as [|n IH]; intros i A W; cbn [ntop6_loop]; [constructor|].
  specialize (IH (S i) A W). destruct (in_run best i).
  - apply Forall_app. split; auto. destruct (run_base best i); repeat constructor. discriminate.
  - apply Forall_app. split; [destruct (i =? 0)%nat; repeat constructor; discriminate|].
    destruct ((i =? 6)%nat && ipv4_tail best ws).
    + apply ntop4_noslash. apply octets_skipn, A.
    + apply Forall_app. split; auto. now apply hex_noslash.
Qed.

Lemma ntop6_noslash a : wf a -> noslash (ntop6 a).
Proof.
  intros W. unfold ntop6, noslash. apply Forall_app. split.
  - apply ntop6_loop_noslash; auto. intros j. now apply words_nth.
  - destruct (best_run (words a)) as [[b l]|]; [|constructor]. destruct (b + l =? 8)%nat; repeat constructor. discriminate.
Qed.

(** a dotted quad is not an IPv6 address *)
Lemma pton6_ntop4 l : length l = 4%nat -> octets l -> pton6 (ntop4 l) = None.
Proof.
  intros L O. assert (E : pton6 (ntop4 l) = pton6_loop (ntop4 l) (ntop4 l) [] None 0 0).
  { unfold ntop4. set (x := nth 0 l 0). assert (X : x < 2 ^ 32) by (pose proof (octets_nth l 0 O); lia).
    rewrite dec_dd by auto. destruct (dd_spec x X) as (_ & F & NE & _).
    destruct (dd x) as [|d ds]; [contradiction|]. inversion F; subst. cbn [map app pton6].
    now replace (48 + d =? COLON) with false by (unfold COLON; lia). }
  rewrite E. destruct (pton6_quad l [] None L O ltac:(cbn; lia)) as [v Q]. rewrite Q.
  unfold pton6_end. cbn [Nat.ltb Nat.leb app]. now rewrite L.
Qed.

(** * Addresses *)
Definition text (a : addr) : cstr := if v4mapped a then ntop4 (skipn 12 a) else ntop6 a.

Lemma text_length a : wf a -> (length (text a) <= 41)%nat.
Proof.
  intros W. unfold text. destruct (v4mapped a); [|now apply ntop6_length].
  pose proof (ntop4_length (skipn 12 a) (octets_skipn _ 12 (proj2 W))). lia.
Qed.

Lemma text_noslash a : wf a -> noslash (text a).
Proof.
  intros W. unfold text. destruct (v4mapped a); [|now apply ntop6_noslash].
  apply ntop4_noslash. apply octets_skipn, W.
Qed.

Lemma address_text_eq a : wf a -> address_text a INET6_ADDRSTRLEN = Some (text a).
Proof.
  intros W. pose proof (text_length a W) as L. unfold address_text, text, sized in *.
  destruct (v4mapped a).
  - now replace (INET6_ADDRSTRLEN <=? length (ntop4 (skipn 12 a)))%nat with false by (unfold INET6_ADDRSTRLEN; lia).
  - now replace (INET6_ADDRSTRLEN <=? length (ntop6 a))%nat with false by (unfold INET6_ADDRSTRLEN; lia).
Qed.

(** what inet_pton makes of the text, both families *)
Definition pton (t : cstr) : option (addr * family) :=
  match pton6 t with
  | Some a => Some (a, AF_INET6)
  | None => match pton4 t with Some l => Some (from_address4 l, AF_INET) | None => None end
  end.

Lemma mapped_split a : wf a -> v4mapped a = true -> from_address4 (skipn 12 a) = a.
Proof.
  intros W M. apply v4mapped_firstn in M; auto. unfold from_address4. rewrite app_assoc, <- M.
  apply firstn_skipn.
Qed.

Lemma pton_text a : wf a -> pton (text a) = Some (a, addr_family a).
Proof.
  intros W. unfold pton, text, addr_family. destruct (v4mapped a) eqn:M.
  - assert (L : length (skipn 12 a) = 4%nat) by (rewrite skipn_length, (proj1 W); lia).
    assert (O : octets (skipn 12 a)) by apply octets_skipn, W.
    now rewrite pton6_ntop4, pton4_ntop4, mapped_split by auto.
  - now rewrite pton6_ntop6.
Qed.

Lemma address_parse_eq want s : (N.of_nat (length s) <= 2 ^ 31 - 1) ->
  address_parse want (Some s) =
  let (t, p) := split_slash (firstn 48 s) in
  match pton t with
  | None => Err 1
  | Some (a, f) =>
      if negb want then Ok (a, 0)
      else match p with
           | Some p =>
               let prefix := Z.to_N (strtol p mod 2 ^ 32) in
               if family_bit_length f <? prefix then Err 1 else Ok (a, prefix)
           | None => Ok (a, family_bit_length f)
           end
  end.
Proof.
  intros L. unfold address_parse. replace (2 ^ 31 - 1 <? N.of_nat (length s)) with false by lia.
  reflexivity.
Qed.

Lemma split_slash_none s : noslash s -> split_slash s = (s, None).
Proof.
  induction 1 as [|c s C _ IH]; cbn [split_slash]; auto. replace (c =? SLASH) with false by (unfold SLASH; lia). now rewrite IH.
Qed.

Lemma split_slash_some s p : noslash s -> split_slash (s ++ SLASH :: p) = (s, Some p).
Proof.
  induction 1 as [|c s C _ IH]; cbn [split_slash app]; auto. replace (c =? SLASH) with false by (unfold SLASH; lia). now rewrite IH.
Qed.

Lemma split_slash_inv s t p : split_slash s = (t, p) -> noslash t /\
  s = match p with None => t | Some p => t ++ SLASH :: p end.
Proof.
  revert t p. induction s as [|c s IH]; intros t p E; cbn [split_slash] in E.
  - injection E as <- <-. split; auto. constructor.
  - destruct (N.eqb_spec c SLASH).
    + injection E as <- <-. subst. split; [constructor|reflexivity].
    + destruct (split_slash s) as [x y]. injection E as <- <-. destruct (IH _ _ eq_refl) as [A B].
      split; [constructor; auto|]. destruct y; cbn [app]; congruence.
Qed.

Lemma small_length (s : cstr) : (length s <= 48)%nat -> N.of_nat (length s) <= 2 ^ 31 - 1.
Proof. lia. Qed.

(** printing and parsing an address *)
Lemma parse_text a : wf a ->
  address_parse false (Some (text a)) = Ok (a, 0) /\
  address_parse true (Some (text a)) = Ok (a, if v4mapped a then 32 else 128).
Proof.
  intros W. pose proof (text_length a W) as L.
  rewrite !address_parse_eq by (apply small_length; lia).
  rewrite firstn_all2 by lia. rewrite split_slash_none by now apply text_noslash.
  rewrite pton_text by auto. unfold addr_family, family_bit_length. destruct (v4mapped a); auto.
Qed.

(** strtol on decimal text *)
Lemma read_digits_number ds : forall v, Forall (fun d => d < 10) ds ->
  read_digits (map (fun d => 48 + d) ds) v = fold_left (fun v d => v * 10 + d) ds v.
Proof.
  induction ds as [|d ds IH]; intros v F; auto. inversion F; subst. cbn [map read_digits fold_left].
  rewrite is_digit_48 by auto. rewrite IH by auto. f_equal. lia.
Qed.

Lemma strtol_decimal s v : decimal s v -> strtol s = Z.min (2 ^ 63 - 1) (Z.of_N v).
Proof.
  intros (ds & NE & F & -> & ->). destruct ds as [|d ds]; [contradiction|]. inversion F; subst.
  assert (D : d < 10) by auto.
  unfold strtol. cbn [map skip_space]. replace (is_space (48 + d)) with false by (unfold is_space; lia).
  replace (48 + d =? 45) with false by lia. replace (48 + d =? 43) with false by lia.
  change (48 + d :: map (fun d => 48 + d) ds) with (map (fun d => 48 + d) (d :: ds)).
  rewrite read_digits_number by auto. reflexivity.
Qed.

Lemma strtol_small s v : decimal s v -> v < 2 ^ 32 -> Z.to_N (strtol s mod 2 ^ 32) = v.
Proof.
  intros D V. rewrite (strtol_decimal s v D). rewrite Z.min_r by lia.
  rewrite Z.mod_small by lia. lia.
Qed.

Lemma strtol_huge s v : decimal s v -> 2 ^ 63 <= v -> Z.to_N (strtol s mod 2 ^ 32) = 2 ^ 32 - 1.
Proof.
  intros D V. rewrite (strtol_decimal s v D). rewrite Z.min_l by lia. reflexivity.
Qed.

(** * What inet_pton6 returns is an address *)
Lemma octs_ok v : octets (octs v).
Proof. unfold octs, octets. repeat constructor; apply N.mod_lt; lia. Qed.

Lemma some_inj {A} (x y : A) : Some x = Some y -> x = y.
Proof. congruence. Qed.

Lemma pton6_end_wf tmp colon seen v a : pton6_end tmp colon seen v = Some a ->
  octets tmp -> (length tmp <= 16)%nat -> (forall c, colon = Some c -> (c <= length tmp)%nat) -> wf a.
Proof.
  intros E O L C. unfold pton6_end in E.
  assert (G : forall t, octets t -> (length tmp <= length t <= 16)%nat ->
    match colon with
    | Some c => if (length t =? 16)%nat then None else Some (firstn c t ++ repeat 0 (16 - length t) ++ skipn c t)
    | None => if (length t =? 16)%nat then Some t else None
    end = Some a -> wf a).
  { intros t Ot Lt Q. destruct colon as [c|].
    - destruct (length t =? 16)%nat eqn:Q'; [discriminate|]. apply some_inj in Q. subst a. specialize (C c eq_refl). split.
      + rewrite !app_length, firstn_length, repeat_length, skipn_length. lia.
      + apply octets_app. split; [now apply octets_firstn|]. apply octets_app. split; [|now apply octets_skipn].
        unfold octets. apply Forall_forall. intros x I. apply repeat_spec in I. subst. reflexivity.
    - destruct (length t =? 16)%nat eqn:Q'; [|discriminate]. injection Q as <-. split; auto. lia. }
  destruct (0 <? seen)%nat.
  - destruct (16 <? length tmp + 2)%nat eqn:B; [discriminate|]. apply (G (tmp ++ octs v)).
    + apply octets_app. split; auto using octs_ok.
    + rewrite app_length. cbn [length octs]. lia.
    + exact E.
  - apply (G tmp); auto.
Qed.

Lemma pton6_loop_wf s : forall tok tmp colon seen v a, pton6_loop s tok tmp colon seen v = Some a ->
  octets tmp -> (length tmp <= 16)%nat -> (forall c, colon = Some c -> (c <= length tmp)%nat) -> wf a.
Proof.
  induction s as [|c s IH]; intros tok tmp colon seen v a E O L C; cbn [pton6_loop] in E.
  - eapply pton6_end_wf; eauto.
  - destruct (hex_value c).
    + destruct (seen =? 4)%nat; [discriminate|]. destruct (65535 <? _); [discriminate|]. eapply IH; eauto.
    + destruct (c =? COLON).
      * destruct (seen =? 0)%nat.
        -- destruct colon; [discriminate|]. eapply IH; eauto. intros ? Q. injection Q as <-. auto.
        -- destruct s as [|c' s]; [discriminate|]. destruct (16 <? length tmp + 2)%nat eqn:B; [discriminate|].
           eapply IH; [exact E| | |].
           ++ apply octets_app. split; auto. apply octs_ok.
           ++ rewrite app_length. cbn [length]. lia.
           ++ intros x Q. specialize (C x Q). rewrite app_length. lia.
      * destruct ((c =? DOT) && (length tmp + 4 <=? 16)%nat) eqn:B; [|discriminate].
        destruct (pton4 tok) as [o|] eqn:P; [|discriminate]. destruct (pton4_text _ _ P) as (Lo & Oo & _).
        eapply pton6_end_wf; [exact E| | |].
        -- apply octets_app. split; auto.
        -- rewrite app_length. lia.
        -- intros x Q. specialize (C x Q). rewrite app_length. lia.
Qed.

Lemma pton6_wf s a : pton6 s = Some a -> wf a.
Proof.
  intros E. assert (G : forall t, pton6_loop t t [] None 0 0 = Some a -> wf a).
  { intros t Q. eapply pton6_loop_wf; [exact Q|constructor|cbn; lia|discriminate]. }
  destruct s as [|c s]; [discriminate|]. cbn [pton6] in E. destruct (c =? COLON); [|now apply (G (c :: s))].
  destruct s as [|c' s]; [discriminate|]. destruct (c' =? COLON); [|discriminate]. now apply (G (c' :: s)).
Qed.

Lemma pton_wf t a f : pton t = Some (a, f) -> wf a /\ (f = AF_INET -> mappedb (val a) = true).
Proof.
  unfold pton. intros E.
  destruct (pton6 t) as [b|] eqn:P6; [injection E as <- <-; split; [now apply (pton6_wf t)|discriminate]|].
  destruct (pton4 t) as [l|] eqn:P; [|discriminate].
  injection E as <- <-. destruct (pton4_text t l P) as (L & O & _).
  assert (W : wf (from_address4 l)).
  { unfold from_address4. split; [rewrite !app_length, L; reflexivity|].
    unfold octets. apply Forall_app. split; [repeat constructor|]. apply Forall_app. split; [|exact O].
    repeat constructor. }
  split; auto. intros _. rewrite <- v4mapped_val by auto. apply v4mapped_firstn; auto.
Qed.
