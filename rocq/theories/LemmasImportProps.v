(** Statements about the importer *)
From Coq Require Import String.
From Coq Require Import NArith ZArith List Bool Lia ZifyBool ZifyNat ZifyN Sorted.
From Verif Require Import Base ModelCountryCode ModelStringPool SpecText LemmasStringPool ModelImport SpecImport
  LemmasImportRange LemmasImport LemmasImportTable LemmasImportBird.
Import ListNotations.
Open Scope N_scope.

Lemma eqb_same : forall s, cstr_eqb s s = true.
Proof. intro s. apply cstr_eqb_eq. reflexivity. Qed.
Lemma eqb_diff : forall s t, s <> t -> cstr_eqb s t = false.
Proof. intros s t N. apply not_true_is_false. intro E. apply cstr_eqb_eq in E. contradiction. Qed.
Lemma status_ok : forall s, s = txt "assigned" \/ s = txt "allocated" ->
  cstr_eqb s (txt "assigned") || cstr_eqb s (txt "allocated") = true.
Proof. intros s [-> | ->]; reflexivity. Qed.
Lemma valid_ok : forall valid cc, valid = [] \/ In cc valid -> negb (length valid =? 0)%nat && negb (existsb (cstr_eqb cc) valid) = false.
Proof.
  intros valid cc [-> |I]; [reflexivity|].
  replace (existsb (cstr_eqb cc) valid) with true; [apply andb_false_r|]. symmetry. apply existsb_exists. exists cc.
  split; [exact I|apply eqb_same].
Qed.
Lemma cc_given : forall cc : cstr, cc <> [] -> cc <> txt "*" -> (length cc =? 0)%nat || cstr_eqb cc (txt "*") = false.
Proof. intros cc N1 N2. rewrite eqb_diff by exact N2. destruct cc; [contradiction|reflexivity]. Qed.

Lemma line_ipv4 : forall py_int py_log2 py_addr is_global is_unspecified valid reg cc address number date status org a k,
  let n := mkP 32 a (32 - k) in
  Forall (plain BAR) ([reg; cc; txt "ipv4"; address; number; date; status] ++ org) -> (length org <= 1)%nat ->
  starts_with 50 reg = false -> starts_with HASH reg = false ->
  cc <> [] -> cc <> txt "*" -> (valid = [] \/ In cc valid) -> status = txt "assigned" \/ status = txt "allocated" ->
  py_int number = Some (Z.of_N (2 ^ k)) -> py_log2 (Z.of_N (2 ^ k)) = Some (Z.of_N k) -> k <= 25 ->
  py_addr address = Some (32, a) -> a mod 2 ^ k = 0 ->
  is_global n = true -> is_unspecified n = false ->
  parse_line py_int py_log2 py_addr is_global is_unspecified valid
    (joined BAR ([reg; cc; txt "ipv4"; address; number; date; status] ++ org)) = Row (n, cc) /\
  forall v, holds n v <-> a <= v < a + 2 ^ k.
Proof.
  intros py_int py_log2 py_addr is_global is_unspecified valid reg cc address number date status org a k n F O S1 S2 C1 C2 V ST NI NL K AD AL G U.
  split.
  - rewrite line_result by assumption. rewrite S1, S2, status_ok, valid_ok, cc_given by assumption.
    change (cstr_eqb (txt "ipv4") (txt "ipv6") || cstr_eqb (txt "ipv4") (txt "ipv4")) with true.
    change (cstr_eqb (txt "ipv4") (txt "ipv4")) with true. cbn [orb negb].
    rewrite NI, NL, AD. replace (32 - Z.of_N k)%Z with (Z.of_N (32 - k)) by lia.
    rewrite network_aligned; [|lia|replace (32 - (32 - k)) with k by lia; exact AL].
    fold n. unfold check_parsed_network. rewrite G, U. cbn [negb]. subst n. cbn [p_bits p_len].
    change (32 =? 128) with false. cbn [andb]. replace (32 - k <? 7) with false by lia. rewrite andb_false_r. reflexivity.
  - intro v. unfold holds, size_of. subst n. cbn [p_bits p_len p_base]. replace (32 - (32 - k)) with k by lia. tauto.
Qed.
Lemma line_ipv6 : forall py_int py_log2 py_addr is_global is_unspecified valid reg cc address number date status org a p,
  let n := mkP 128 (a - a mod 2 ^ (128 - p)) p in
  Forall (plain BAR) ([reg; cc; txt "ipv6"; address; number; date; status] ++ org) -> (length org <= 1)%nat ->
  starts_with 50 reg = false -> starts_with HASH reg = false ->
  cc <> [] -> cc <> txt "*" -> (valid = [] \/ In cc valid) -> status = txt "assigned" \/ status = txt "allocated" ->
  py_int number = Some (Z.of_N p) -> 10 <= p <= 128 -> py_addr address = Some (128, a) -> a < 2 ^ 128 ->
  is_global n = true -> is_unspecified n = false ->
  parse_line py_int py_log2 py_addr is_global is_unspecified valid
    (joined BAR ([reg; cc; txt "ipv6"; address; number; date; status] ++ org)) = Row (n, cc) /\
  net_wf n /\ holds n a.
Proof.
  intros py_int py_log2 py_addr is_global is_unspecified valid reg cc address number date status org a p n F O S1 S2 C1 C2 V ST NI K AD AL G U.
  assert (E : ip_network 128 a (Z.of_N p) = Some n).
  { unfold ip_network. replace ((Z.of_N p <? 0) || (Z.of_N 128 <? Z.of_N p))%Z with false by lia. rewrite N2Z.id. reflexivity. }
  split.
  - rewrite line_result by assumption. rewrite S1, S2, status_ok, valid_ok, cc_given by assumption.
    change (cstr_eqb (txt "ipv6") (txt "ipv6") || cstr_eqb (txt "ipv6") (txt "ipv4")) with true.
    change (cstr_eqb (txt "ipv6") (txt "ipv4")) with false. cbn [orb negb].
    rewrite NI, AD, E.
    unfold check_parsed_network. rewrite G, U. cbn [negb]. subst n. cbn [p_bits p_len].
    change (128 =? 32) with false. cbn [andb]. replace (p <? 10) with false by lia. rewrite andb_false_r. reflexivity.
  - destruct (network_wf 128 a _ _ (or_intror eq_refl) AL E) as (W & _ & H & _). split; assumption.
Qed.
Lemma line_count : forall py_int py_log2 py_addr is_global is_unspecified valid reg cc address number date status org a count n c,
  Forall (plain BAR) ([reg; cc; txt "ipv4"; address; number; date; status] ++ org) -> (length org <= 1)%nat ->
  py_int number = Some (Z.of_N count) -> py_log2 (Z.of_N count) = Some (Z.of_N (N.log2 count)) -> count <> 0 ->
  py_addr address = Some (32, a) -> a < 2 ^ 32 ->
  parse_line py_int py_log2 py_addr is_global is_unspecified valid
    (joined BAR ([reg; cc; txt "ipv4"; address; number; date; status] ++ org)) = Row (n, c) ->
  holds n a /\ size_of n <= count < 2 * size_of n.
Proof.
  intros py_int py_log2 py_addr is_global is_unspecified valid reg cc address number date status org a count n c F O NI NL K AD AL H.
  rewrite line_result in H by assumption. rewrite NI, NL, AD in H.
  change (cstr_eqb (txt "ipv4") (txt "ipv6") || cstr_eqb (txt "ipv4") (txt "ipv4")) with true in H.
  change (cstr_eqb (txt "ipv4") (txt "ipv4")) with true in H. cbn [negb] in H.
  repeat match type of H with (if ?b then Skipped else _) = _ => destruct b; [discriminate|] end.
  destruct (ip_network 32 a (32 - Z.of_N (N.log2 count))) as [m|] eqn:E; [|discriminate].
  destruct (check_parsed_network is_global is_unspecified m); [|discriminate].
  assert (m = n) by congruence. subst m.
  destruct (network_wf 32 a _ _ (or_introl eq_refl) AL E) as (W & B & A & L). split; [exact A|].
  unfold size_of. rewrite B. assert (X : p_len n = 32 - N.log2 count) by lia.
  assert (Y : N.log2 count <= 32) by lia. rewrite X. replace (32 - (32 - N.log2 count)) with (N.log2 count) by lia.
  pose proof (N.log2_spec count ltac:(lia)) as Z. rewrite N.pow_succ_r' in Z. exact Z.
Qed.
Lemma line_row : forall py_int py_log2 py_addr is_global is_unspecified valid line n cc,
  (forall s bits a, py_addr s = Some (bits, a) -> (bits = 32 \/ bits = 128) /\ a < 2 ^ bits) ->
  parse_line py_int py_log2 py_addr is_global is_unspecified valid line = Row (n, cc) ->
  net_wf n /\ is_global n = true /\ is_unspecified n = false /\
  (p_bits n = 32 -> 7 <= p_len n) /\ (p_bits n = 128 -> 10 <= p_len n) /\
  cc <> [] /\ cc <> txt "*" /\ (valid <> [] -> In cc valid).
Proof.
  intros py_int py_log2 py_addr is_global is_unspecified valid line n cc PA H. unfold parse_line in H.
  destruct (starts_with 50 line || starts_with HASH line); [discriminate|].
  destruct (partition BAR line) as [reg [l1|]]; [|discriminate].
  destruct (partition BAR l1) as [c [l2|]]; [|discriminate].
  destruct (partition BAR l2) as [type [l3|]]; [|discriminate].
  destruct (negb (cstr_eqb type (txt "ipv6") || cstr_eqb type (txt "ipv4"))); [discriminate|].
  destruct ((length c =? 0)%nat || cstr_eqb c (txt "*")) eqn:E1; [discriminate|].
  destruct (negb (length valid =? 0)%nat && negb (existsb (cstr_eqb c) valid)) eqn:E2; [discriminate|].
  set (fields := match split BAR l3 with [a; p; _; s; _] => Some (a, p, s) | [a; p; _; s] => Some (a, p, s) | _ => None end) in H.
  destruct fields as [[[address prefix] status]|]; [|discriminate].
  destruct (negb (cstr_eqb status (txt "assigned") || cstr_eqb status (txt "allocated"))); [discriminate|].
  destruct (py_int prefix) as [k|]; [|discriminate].
  set (pp := if cstr_eqb type (txt "ipv4") then match py_log2 k with Some l => Some (32 - l)%Z | None => None end else Some k) in H.
  destruct pp as [p|]; [|discriminate].
  destruct (py_addr address) as [[bits a]|] eqn:E3; [|discriminate].
  destruct (ip_network bits a p) as [m|] eqn:E4; [|discriminate].
  destruct (check_parsed_network is_global is_unspecified m) eqn:E5; [|discriminate].
  assert (m = n) by congruence. assert (c = cc) by congruence. subst m c. clear H.
  destruct (PA _ _ _ E3) as [B A]. destruct (network_wf bits a p n B A E4) as (W & PB & _ & _).
  unfold check_parsed_network in E5.
  destruct (is_global n); [|discriminate]. destruct (is_unspecified n); [discriminate|]. cbn [negb] in E5.
  apply orb_false_iff in E1. destruct E1 as [E1 E1'].
  split; [exact W|]. split; [reflexivity|]. split; [reflexivity|].
  split; [intro Q; rewrite Q in E5; change (32 =? 128) with false in E5; change (32 =? 32) with true in E5; cbn [andb] in E5; destruct (N.ltb_spec (p_len n) 7); [discriminate|assumption]|].
  split; [intro Q; rewrite Q in E5; change (128 =? 128) with true in E5; cbn [andb] in E5; destruct (N.ltb_spec (p_len n) 10); [discriminate|assumption]|].
  split; [intros ->; discriminate|]. split; [intros ->; rewrite eqb_same in E1'; discriminate|].
  intro NV. destruct valid as [|x valid]; [contradiction|]. cbn [length Nat.eqb negb andb] in E2.
  apply negb_false_iff in E2. apply existsb_exists in E2. destruct E2 as (y & I & E). apply cstr_eqb_eq in E. subst. exact I.
Qed.

(** ** Ranges *)
Lemma inetnum_range : forall py_addr space py_net s e bits first last,
  plain DASH s -> py_addr (rstrip space s) = Some (bits, first) -> py_addr (strip space e) = Some (bits, last) ->
  bits = 32 \/ bits = 128 -> first <= last -> last < 2 ^ bits ->
  exists l, inetnum py_addr space py_net (s ++ DASH :: e) = Row l /\
    Forall (fun n => p_bits n = bits /\ net_wf n) l /\
    (forall v, (exists n, In n l /\ holds n v) <-> first <= v <= last) /\
    StronglySorted (fun m n => forall v w, holds m v -> holds n w -> v < w) l /\
    (forall b, net_wf b -> p_bits b = bits -> (forall v, holds b v -> first <= v <= last) ->
       exists n, In n l /\ forall v, holds b v -> holds n v).
Proof.
  intros py_addr space py_net s e bits first last P A B F L U.
  destruct (range_exact bits first last F L U) as (l & E & T). exists l.
  split; [|split; [|split; [|split]]].
  - unfold inetnum. rewrite partition_plain by exact P. destruct (rstrip space s) eqn:R; rewrite A, B; exact E.
  - eapply tiles_wf; eassumption.
  - eapply tiles_cover; eassumption.
  - eapply tiles_sorted; eassumption.
  - eapply tiles_largest; eassumption.
Qed.
Lemma inetnum_network : forall py_addr space py_net s n,
  plain DASH s -> rstrip space s <> [] -> py_net (rstrip space s) = Some n -> net_wf n ->
  inetnum py_addr space py_net s = Row [n].
Proof.
  intros py_addr space py_net s n P NE A W. unfold inetnum. rewrite partition_none by exact P.
  destruct (rstrip space s) as [|c r]; [contradiction|]. rewrite A. apply range_network. exact W.
Qed.
Lemma inetnum_short : forall py_addr space py_net s x y n,
  plain DASH s -> rstrip space s = x ++ 47 :: y -> plain 47 x -> plain 47 y -> py_net (x ++ 47 :: y) = None -> net_wf n ->
  (dots x = 1%nat /\ py_net (x ++ txt ".0.0/" ++ y) = Some n) \/ (dots x = 2%nat /\ py_net (x ++ txt ".0/" ++ y) = Some n) ->
  inetnum py_addr space py_net s = Row [n].
Proof.
  intros py_addr space py_net s x y n P R X Y N W H. unfold inetnum. rewrite partition_none by exact P. rewrite R.
  destruct (x ++ 47 :: y) as [|c r] eqn:E; [destruct x; discriminate|]. rewrite N, <- E, split_cons by exact X.
  rewrite (split_plain _ y Y).
  destruct H as [[D H]|[D H]]; rewrite D; cbn [Nat.eqb orb negb]; rewrite H; apply range_network; exact W.
Qed.

(** ** Tables *)
Section Tables.
  Variables t rir : list row.
  Hypothesis kt : keyed t.
  Hypothesis kr : keyed rir.
  Hypothesis nd : NoDup rir.
  Hypothesis wf : forall r, In r t \/ In r rir -> net_wf (r_net r).
  Let wt : forall r, In r t -> net_wf (r_net r) := fun r H => wf r (or_introl H).
  Let wr : forall r, In r rir -> net_wf (r_net r) := fun r H => wf r (or_intror H).
  Lemma networks_located : (forall r, In r rir -> r_country r <> None) ->
    forall bits v c, located (fun r => In r (copy_networks rir t)) bits v c <-> located (either t rir) bits v c.
  Proof. apply copy_located; assumption. Qed.
  Lemma networks_rows : (forall r, In r t -> In r (copy_networks rir t)) /\ (forall r, In r (copy_networks rir t) -> either t rir r).
  Proof. split; [apply copy_old; assumption|apply copy_rows; assumption]. Qed.
  Lemma networks_more : forall r p, In r (copy_networks rir t) -> ~ In r t ->
    (exists q, In q rir /\ p_bits (r_net q) = p_bits (r_net r) /\ p_len (r_net q) < p_len (r_net r)) ->
    around (fun q => In q (copy_networks rir t)) (r_net r) p ->
    r_country p = None \/ r_country p <> r_country r.
  Proof. apply copy_more; assumption. Qed.
End Tables.

(** ** Blocks *)
Lemma blocks_content : forall space decode lines,
  concat (iterate_over_blocks space decode lines) = content space decode lines /\
  Forall (fun b => b <> []) (iterate_over_blocks space decode lines).
Proof. intros. split; [apply (loop_concat space decode lines [])|apply loop_nonempty]. Qed.
Lemma blocks_blank : forall space decode a b l, kind_of space decode l = Blank ->
  iterate_over_blocks space decode (a ++ l :: b) = iterate_over_blocks space decode a ++ iterate_over_blocks space decode b.
Proof. intros. apply loop_blank. assumption. Qed.
Lemma blocks_one : forall space decode lines, (forall l, In l lines -> kind_of space decode l <> Blank) ->
  content space decode lines <> [] -> iterate_over_blocks space decode lines = [content space decode lines].
Proof.
  intros space decode lines H N. unfold iterate_over_blocks. rewrite loop_run by exact H. cbn [app].
  destruct (content space decode lines); [contradiction|reflexivity].
Qed.
Lemma blocks_comment : forall space decode a b l, kind_of space decode l = Ignored ->
  iterate_over_blocks space decode (a ++ l :: b) = iterate_over_blocks space decode (a ++ b).
Proof. intros. apply loop_ignored. assumption. Qed.

(** ** Bird *)
Lemma bird_answer : forall chunks lines outs fin r rest,
  Forall (fun l => l <> [] /\ ~ In NEWLINE l) lines -> Forall2 gives lines outs ->
  ~ In NEWLINE fin -> coded fin 0 r ->
  concat chunks = answer (lines ++ [fin]) ++ rest ->
  bird_cmd [] chunks = (concat outs, true).
Proof.
  intros chunks lines outs fin r rest G F NF C H. apply (cmd_end fin r rest chunks lines); auto.
  rewrite H, answer_app. unfold answer at 2. cbn [map concat]. rewrite app_nil_r, <- !app_assoc. reflexivity.
Qed.
Lemma bird_waiting : forall chunks lines outs part,
  Forall (fun l => l <> [] /\ ~ In NEWLINE l) lines -> Forall2 gives lines outs -> ~ In NEWLINE part ->
  concat chunks = answer lines ++ part ->
  bird_cmd [] chunks = (concat outs, false).
Proof. intros chunks lines outs part G F NP H. apply (cmd_part part chunks lines); auto. Qed.
Lemma bird_empty : forall chunks lines outs rest,
  Forall (fun l => l <> [] /\ ~ In NEWLINE l) lines -> Forall2 gives lines outs ->
  concat chunks = answer (lines ++ [[]]) ++ rest ->
  bird_cmd [] chunks = (concat outs, false).
Proof.
  intros chunks lines outs rest G F H. apply (cmd_blank rest chunks lines); auto.
  rewrite H, answer_app, <- app_assoc. reflexivity.
Qed.
