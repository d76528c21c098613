(** Well-formed replies are understood. *)
From Coq Require Import String.
From Coq Require Import NArith ZArith List Bool Arith Lia ZifyBool ZifyNat ZifyN.
From Verif Require Import Base LemmasBase ModelCountryCode ModelText SpecText ModelResolv SpecResolv LemmasResolv
  LemmasResolvDate.
Import ListNotations.
Open Scope N_scope.

Lemma get_at pre c post : get (pre ++ c :: post) (length pre) = Ok c.
Proof. unfold get. rewrite nth_error_app2 by lia. now rewrite Nat.sub_diag. Qed.

Lemma get_at' buf pre c post p : buf = pre ++ c :: post -> p = length pre -> get buf p = Ok c.
Proof. intros -> ->. apply get_at. Qed.

Lemma take_at l : forall buf pre post p, buf = pre ++ l ++ post -> p = length pre -> take buf p (length l) = Ok l.
Proof.
  induction l as [|c l IH]; intros buf pre post p E P; cbn [take length]; auto.
  rewrite (get_at' buf pre c (l ++ post) p) by auto. cbn [bind].
  rewrite (IH buf (pre ++ [c]) post) by (rewrite ?E, ?P, ?app_length; cbn [app length]; rewrite <- ?app_assoc; cbn; auto; lia).
  reflexivity.
Qed.

Lemma get16_at buf pre a b post p : buf = pre ++ a :: b :: post -> p = length pre -> get16 buf p = Ok (a * 256 + b).
Proof.
  intros E P. unfold get16. rewrite (get_at' buf pre a (b :: post) p) by auto. cbn [bind].
  rewrite (get_at' buf (pre ++ [a]) b post (p + 1)); [reflexivity| |].
  - rewrite E, <- app_assoc. reflexivity.
  - rewrite app_length. cbn. lia.
Qed.

Lemma plain_cons l labels : plain_bytes (l :: labels) = N.of_nat (length l) :: l ++ plain_bytes labels.
Proof. unfold plain_bytes. cbn [flat_map app]. now rewrite <- app_assoc. Qed.

Lemma unpack_plain labels : forall buf pre post e start s dst len checked fuel, Forall label_ok labels ->
  buf = pre ++ plain_bytes labels ++ post -> s = length pre -> (s + length (plain_bytes labels) <= e)%nat ->
  (dst + length (plain_bytes labels) <= 255)%nat -> (length labels < fuel)%nat ->
  unpack buf e start s dst len checked fuel =
  Ok (match len with Some l => l | None => s + length (plain_bytes labels) - start end, labels)%nat.
Proof.
  induction labels as [|l labels IH]; intros buf pre post e start s dst len checked fuel F B P E D Q.
  - destruct fuel as [|fuel]; [cbn in Q; lia|]. cbn [unpack].
    rewrite (get_at' buf pre 0 post s) by auto. cbn [bind]. cbn [N.eqb]. reflexivity.
  - rewrite plain_cons in *. apply Forall_cons_iff in F as [[L1 L2] F'].
    destruct fuel as [|fuel]; [cbn in Q; lia|]. cbn [length] in Q. cbn [unpack].
    cbn [length] in E, D. rewrite app_length in E, D. cbn [app] in B. rewrite <- app_assoc in B.
    assert (PB : (1 <= length (plain_bytes labels))%nat) by (unfold plain_bytes; rewrite app_length; cbn; lia).
    rewrite (get_at' buf pre (N.of_nat (length l)) (l ++ plain_bytes labels ++ post) s) by auto. cbn [bind].
    replace (N.of_nat (length l) =? 0) with false by lia. replace (N.of_nat (length l) <? 64) with true by lia.
    rewrite Nat2N.id. unfold NS_MAXCDNAME.
    replace ((255 <=? dst + length l + 1) || (e <=? s + 1 + length l))%nat with false by lia.
    rewrite (take_at l buf (pre ++ [N.of_nat (length l)]) (plain_bytes labels ++ post)).
    2:{ rewrite B, <- app_assoc. reflexivity. }
    2:{ rewrite app_length. cbn. lia. }
    cbn [bind]. rewrite (IH buf (pre ++ N.of_nat (length l) :: l) post); auto; try lia.
    + cbn [bind length]. rewrite app_length. destruct len; auto. do 3 f_equal. lia.
    + rewrite B, <- app_assoc. reflexivity.
    + rewrite app_length. cbn. lia.
Qed.

Lemma name_char_quoted c : name_char c -> quoted c = [c].
Proof.
  intros H. unfold quoted. assert (special c = false) as ->.
  { unfold special. cbn [existsb]. unfold name_char in H. lia. }
  replace ((32 <? c) && (c <? 127)) with true by (unfold name_char in H; lia). reflexivity.
Qed.

Lemma ntop_chars_plain room l : forall out, Forall name_char l -> (length out + length l <= room)%nat ->
  ntop_chars room out l = Ok (out ++ l).
Proof.
  induction l as [|c l IH]; intros out F L; cbn [ntop_chars]; [now rewrite app_nil_r|].
  inversion F as [|? ? C F']; subst. rewrite name_char_quoted by auto. cbn [length] in *.
  replace (room <=? length out + (1 - 1))%nat with false by lia. rewrite IH; auto.
  - now rewrite <- app_assoc.
  - rewrite app_length. cbn. lia.
Qed.

Lemma ntop_labels_plain room labels : forall out, Forall label_ok labels ->
  (length out + length (plain_bytes labels) <= room)%nat -> (2 <= room)%nat ->
  exists o, ntop_labels room out labels = Ok o.
Proof.
  induction labels as [|l labels IH]; intros out F L R; cbn [ntop_labels].
  - change (length (plain_bytes [])) with 1%nat in L.
    replace (room <=? length match out with [] => [DOT] | _ => out end)%nat with false by (destruct out; cbn [length] in *; lia).
    eauto.
  - inversion F as [|? ? [L1 L2] F']; subst. rewrite plain_cons in L. cbn [length] in L. rewrite app_length in L.
    assert (PB : (1 <= length (plain_bytes labels))%nat) by (unfold plain_bytes; rewrite app_length; cbn; lia).
    replace (room <=? length out)%nat with false by lia. rewrite andb_false_r.
    set (o := if match out with [] => true | _ => false end then out else out ++ [DOT]).
    assert (O : (length o <= length out + 1)%nat) by (unfold o; destruct out; rewrite ?app_length; cbn; lia).
    replace (room <=? length o + length l)%nat with false by lia.
    rewrite ntop_chars_plain by (auto; lia). cbn [bind]. apply IH; auto. rewrite app_length. lia.
Qed.

Lemma plain_length labels : Forall label_ok labels -> (2 * length labels + 1 <= length (plain_bytes labels))%nat.
Proof.
  induction 1 as [|l labels [L _] _ IH]; [cbn; lia|]. rewrite plain_cons. cbn [length]. rewrite app_length. lia.
Qed.

Lemma expand_plain buf pre post labels e p : plain_ok labels -> buf = pre ++ plain_bytes labels ++ post ->
  p = length pre -> (p + length (plain_bytes labels) <= e)%nat ->
  dn_expand buf e p = Ok (length (plain_bytes labels)).
Proof.
  intros [F L] B P E. pose proof (plain_length labels F) as PL. unfold dn_expand.
  replace (e <=? p)%nat with false by lia.
  rewrite (unpack_plain labels buf pre post e p p 0 None 0 (e + 130)) by (auto; lia). cbn [bind].
  destruct (ntop_labels_plain 128 labels [] F) as (o & ->); [cbn; lia|lia|]. cbn [bind]. f_equal. lia.
Qed.

Lemma expand_question buf hdr q post0 pre post e p : plain_ok q -> length hdr = 12%nat ->
  buf = hdr ++ plain_bytes q ++ post0 -> (12 + length (plain_bytes q) <= e)%nat ->
  buf = pre ++ [192; 12] ++ post -> p = length pre -> (p + 2 <= e)%nat ->
  dn_expand buf e p = Ok 2%nat.
Proof.
  intros [F L] H B E B' P E'. pose proof (plain_length q F) as PL. unfold dn_expand.
  replace (e <=? p)%nat with false by lia. replace (e + 130)%nat with (S (e + 129)) by lia. cbn [unpack].
  rewrite (get_at' buf pre 192 (12 :: post) p) by auto. cbn [bind].
  change (192 =? 0) with false. change (192 <? 64) with false. change (192 <? 192) with false. cbn iota.
  replace (e <=? p + 1)%nat with false by lia.
  rewrite (get_at' buf (pre ++ [192]) 12 post (p + 1)).
  2:{ rewrite B', <- app_assoc. reflexivity. }
  2:{ rewrite app_length. cbn. lia. }
  cbn [bind]. change (N.to_nat ((192 - 192) * 256 + 12)) with 12%nat.
  replace (e <=? 12)%nat with false by lia. replace (e <=? 0 + 2)%nat with false by lia.
  rewrite (unpack_plain q buf hdr post0) by (auto; lia). cbn [bind].
  destruct (ntop_labels_plain 128 q [] F) as (o & ->); [cbn; lia|lia|]. cbn [bind]. f_equal. lia.
Qed.

Section Reply.
  Variables (buf hdr : list N) (q : list (list N)) (post0 : list N) (e : nat).
  Hypothesis Q : plain_ok q.
  Hypothesis H : length hdr = 12%nat.
  Hypothesis B : buf = hdr ++ plain_bytes q ++ post0.
  Hypothesis E : (12 + length (plain_bytes q) <= e)%nat.

  Lemma expand_name pre n post p : name_ok n -> buf = pre ++ name_bytes n ++ post -> p = length pre ->
    (p + length (name_bytes n) <= e)%nat -> dn_expand buf e p = Ok (length (name_bytes n)).
  Proof.
    intros N0 B' P E'. destruct n as [labels|].
    - now apply (expand_plain buf pre post).
    - exact (expand_question buf hdr q post0 pre post e p Q H B E B' P E').
  Qed.

  Lemma two_eq v : N.of_nat v / 256 * 256 + N.of_nat v mod 256 = N.of_nat v.
  Proof. pose proof (N.div_mod (N.of_nat v) 256 ltac:(lia)). lia. Qed.

  (** one step of [walk] *)
  Lemma walk_record fuel pre type r post p : rr_ok r -> buf = pre ++ rr_bytes type r ++ post -> p = length pre ->
    (p + length (rr_bytes type r) <= e)%nat ->
    walk dn_expand (S fuel) buf e p =
    if type =? T_CNAME then walk dn_expand fuel buf e (p + length (rr_bytes type r))
    else Ok (type, length (rr_data r), (p + length (rr_bytes type r) - length (rr_data r))%nat).
  Proof.
    intros (N0 & C & T & D) B' P E'. unfold rr_bytes in B', E'. rewrite !app_length in E'. cbn [length] in E'.
    destruct r as [n cls ttl data]. cbn [rr_name rr_class rr_ttl rr_data] in *.
    destruct cls as [|c1 [|c2 [|]]]; try discriminate C. destruct ttl as [|t1 [|t2 [|t3 [|t4 [|]]]]]; try discriminate T.
    unfold two in B', E'. cbn [length app] in B', E'. rewrite <- !app_assoc in B'. cbn [app] in B'.
    cbn [walk]. rewrite (expand_name pre n (0 :: type :: c1 :: c2 :: t1 :: t2 :: t3 :: t4 ::
      N.of_nat (length data) / 256 :: N.of_nat (length data) mod 256 :: data ++ post) p) by (auto; lia). cbn [bind].
    replace (e <? p + length (name_bytes n) + 10)%nat with false by lia.
    assert (B1 : buf = (pre ++ name_bytes n) ++ 0 :: type :: c1 :: c2 :: t1 :: t2 :: t3 :: t4 ::
      N.of_nat (length data) / 256 :: N.of_nat (length data) mod 256 :: data ++ post) by (rewrite <- app_assoc; exact B').
    assert (L1 : length (pre ++ name_bytes n) = (p + length (name_bytes n))%nat) by (rewrite app_length; lia).
    rewrite (get16_at buf _ 0 type _ _ B1) by lia. cbn [bind].
    unfold get32.
    rewrite (get16_at buf ((pre ++ name_bytes n) ++ [0; type; c1; c2]) t1 t2 (t3 :: t4 ::
      N.of_nat (length data) / 256 :: N.of_nat (length data) mod 256 :: data ++ post)).
    2:{ rewrite <- app_assoc. exact B1. }
    2:{ rewrite app_length. cbn. lia. }
    rewrite (get16_at buf ((pre ++ name_bytes n) ++ [0; type; c1; c2; t1; t2]) t3 t4 (
      N.of_nat (length data) / 256 :: N.of_nat (length data) mod 256 :: data ++ post)).
    2:{ rewrite <- app_assoc. exact B1. }
    2:{ rewrite app_length. cbn. lia. }
    cbn [bind].
    rewrite (get16_at buf ((pre ++ name_bytes n) ++ [0; type; c1; c2; t1; t2; t3; t4]) (N.of_nat (length data) / 256)
      (N.of_nat (length data) mod 256) (data ++ post)).
    2:{ rewrite <- app_assoc. exact B1. }
    2:{ rewrite app_length. cbn. lia. }
    cbn [bind]. rewrite two_eq, Nat2N.id. replace (0 * 256 + type) with type by lia.
    replace (e <? p + length (name_bytes n) + 10 + length data)%nat with false by lia.
    unfold rr_bytes. cbn [rr_name rr_class rr_ttl rr_data]. rewrite !app_length. cbn [length two].
    destruct (type =? T_CNAME); [f_equal; lia|]. do 2 f_equal. lia.
  Qed.

  Lemma walk_records cs : forall fuel pre a post p, Forall rr_ok cs -> rr_ok a ->
    buf = pre ++ flat_map (rr_bytes 5) cs ++ rr_bytes 16 a ++ post -> p = length pre ->
    (p + length (flat_map (rr_bytes 5) cs) + length (rr_bytes 16 a) <= e)%nat -> (length cs < fuel)%nat ->
    walk dn_expand fuel buf e p =
    Ok (16, length (rr_data a), (p + length (flat_map (rr_bytes 5) cs) + length (rr_bytes 16 a) - length (rr_data a))%nat).
  Proof.
    induction cs as [|c cs IH]; intros fuel pre a post p F A B' P E' L; (destruct fuel as [|fuel]; [cbn in L; lia|]).
    - cbn [flat_map app] in B'. rewrite (walk_record fuel pre 16 a post p) by (auto; cbn in E'; lia).
      change (16 =? T_CNAME) with false. cbn iota. cbn [flat_map length]. do 2 f_equal. lia.
    - cbn [flat_map] in B', E'. apply Forall_cons_iff in F as [C F'].
      rewrite <- !app_assoc in B'. rewrite app_length in E'.
      rewrite (walk_record fuel pre 5 c (flat_map (rr_bytes 5) cs ++ rr_bytes 16 a ++ post) p) by (auto; lia).
      change (5 =? T_CNAME) with true. cbn iota.
      rewrite (IH fuel (pre ++ rr_bytes 5 c) a post); auto; cbn [length] in *; try lia.
      + cbn [flat_map]. rewrite app_length. do 2 f_equal. lia.
      + rewrite B', <- !app_assoc. reflexivity.
      + rewrite app_length. lia.
  Qed.
End Reply.


Lemma flat_map_length5 cs : Forall rr_ok cs -> (length cs <= length (flat_map (rr_bytes 5) cs))%nat.
Proof.
  induction 1 as [|c cs C _ IH]; cbn [flat_map length]; [lia|]. rewrite app_length.
  assert (1 <= length (rr_bytes 5 c))%nat by (unfold rr_bytes; rewrite !app_length; cbn [length]; lia). lia.
Qed.

Lemma find_reply m pad : reply_ok m ->
  exists p, find_txt dn_expand (reply_bytes m ++ pad) (length (reply_bytes m)) = Ok (p, length (string_ m)) /\
    (p + length (string_ m) + length (more m) + length (rest m) = length (reply_bytes m))%nat /\
    firstn (length (string_ m)) (skipn p (reply_bytes m ++ pad)) = string_ m.
Proof.
  intros (H & Q & C & F & A & D & L). set (buf := reply_bytes m ++ pad). set (e := length (reply_bytes m)).
  assert (LE : e = (12 + length (plain_bytes (question m)) + 4 + length (flat_map (rr_bytes 5) (cnames m)) +
    length (rr_bytes 16 (answer_rr m)) + length (rest m))%nat).
  { unfold e, reply_bytes. rewrite !app_length, H, C. cbn [length]. lia. }
  assert (LB : (e <= length buf)%nat) by (unfold buf; rewrite app_length; fold e; lia).
  assert (B : buf = header m ++ plain_bytes (question m) ++ [0; 16] ++ qclass m ++
    flat_map (rr_bytes 5) (cnames m) ++ rr_bytes 16 (answer_rr m) ++ rest m ++ pad).
  { unfold buf, reply_bytes. now rewrite <- !app_assoc. }
  assert (LA : (length (rr_bytes 16 (answer_rr m)) = length (rr_bytes 16 (answer_rr m)) - length (rr_data (answer_rr m))
     + (1 + length (string_ m) + length (more m)))%nat /\ (length (rr_data (answer_rr m)) <= length (rr_bytes 16 (answer_rr m)))%nat).
  { unfold rr_bytes. rewrite D. rewrite !app_length. cbn [length]. rewrite app_length. lia. }
  destruct LA as [LA LA'].
  set (pre := header m ++ plain_bytes (question m) ++ [0; 16] ++ qclass m ++ flat_map (rr_bytes 5) (cnames m) ++
    name_bytes (rr_name (answer_rr m)) ++ [0; 16] ++ rr_class (answer_rr m) ++ rr_ttl (answer_rr m) ++
    two (length (rr_data (answer_rr m)))).
  assert (B2 : buf = pre ++ N.of_nat (length (string_ m)) :: string_ m ++ more m ++ rest m ++ pad).
  { rewrite B. unfold pre, rr_bytes. rewrite D at 2. rewrite <- !app_assoc. cbn [app]. now rewrite <- !app_assoc. }
  assert (LP : length pre = (e - length (rest m) - length (rr_data (answer_rr m)))%nat).
  { rewrite LE. unfold pre, rr_bytes. rewrite !app_length, H, C. cbn [length]. lia. }
  assert (LD : length (rr_data (answer_rr m)) = (1 + length (string_ m) + length (more m))%nat).
  { rewrite D. cbn [length]. rewrite app_length. lia. }
  exists (length pre + 1)%nat. split; [|split].
  - unfold find_txt. change HFIXEDSZ with 12%nat.
    rewrite (expand_plain buf (header m) ([0; 16] ++ qclass m ++
      flat_map (rr_bytes 5) (cnames m) ++ rr_bytes 16 (answer_rr m) ++ rest m ++ pad) (question m)) by (auto; lia).
    cbn [bind]. replace (e <? 12 + length (plain_bytes (question m)) + 4)%nat with false by lia.
    rewrite (get16_at buf (header m ++ plain_bytes (question m)) 0 16 (qclass m ++
      flat_map (rr_bytes 5) (cnames m) ++ rr_bytes 16 (answer_rr m) ++ rest m ++ pad)).
    2:{ rewrite B, <- app_assoc. reflexivity. }
    2:{ rewrite app_length. lia. }
    cbn [bind]. change (negb (0 * 256 + 16 =? T_TXT)) with false. cbn iota.
    pose proof (flat_map_length5 _ F) as FL.
    rewrite (walk_records buf (header m) (question m) ([0; 16] ++ qclass m ++
      flat_map (rr_bytes 5) (cnames m) ++ rr_bytes 16 (answer_rr m) ++ rest m ++ pad) e Q H B ltac:(lia)
      (cnames m) (S (length buf)) (header m ++ plain_bytes (question m) ++ [0; 16] ++ qclass m) (answer_rr m) (rest m ++ pad));
      auto; try lia.
    2:{ rewrite B, <- !app_assoc. reflexivity. }
    2:{ rewrite !app_length, C, H. cbn [length]. lia. }
    cbn [bind]. change (negb (16 =? T_TXT)) with false. cbn iota.
    replace (length (rr_data (answer_rr m)) =? 0)%nat with false by lia.
    rewrite (get_at' buf pre (N.of_nat (length (string_ m))) (string_ m ++ more m ++ rest m ++ pad)); auto; [|lia].
    cbn [bind]. rewrite Nat2N.id.
    replace ((length (rr_data (answer_rr m)) <=? length (string_ m)) || (length (string_ m) =? 0))%nat with false by lia.
    do 2 f_equal. lia.
  - lia.
  - rewrite B2. replace (pre ++ N.of_nat (length (string_ m)) :: string_ m ++ more m ++ rest m ++ pad)
      with ((pre ++ [N.of_nat (length (string_ m))]) ++ string_ m ++ more m ++ rest m ++ pad) by (rewrite <- app_assoc; reflexivity).
    replace (length pre + 1)%nat with (length (pre ++ [N.of_nat (length (string_ m))])) by (rewrite app_length; cbn; lia).
    rewrite skipn_app, skipn_all, Nat.sub_diag. cbn [skipn app]. now rewrite firstn_app, firstn_all, Nat.sub_diag, firstn_O, app_nil_r.
Qed.

Lemma upto_nul_id l : Forall (fun c => c <> 0) l -> upto_nul l = l.
Proof.
  induction 1 as [|c l C _ IH]; cbn; auto. replace (c =? 0) with false by lia. now rewrite IH.
Qed.

Lemma discover_string m pad : reply_ok m -> Forall (fun c => c <> 0) (string_ m) ->
  length (reply_bytes m ++ pad) = PACKETSZ ->
  ((length (reply_bytes m) < PACKETSZ)%nat \/ more m ++ rest m <> []) ->
  discover dn_expand 0 (Z.of_nat (length (reply_bytes m))) (reply_bytes m ++ pad) =
  let (t, r) := parse_timestamp (string_ m) in Ok (r, Some t).
Proof.
  intros O Z0 L M. destruct (find_reply m pad O) as (p & P & PL & PS).
  assert (LL : (length (reply_bytes m) <= 512)%nat) by (rewrite app_length in L; unfold PACKETSZ in L; lia).
  rewrite discover_eq by (auto; lia). rewrite Nat2Z.id, P, PS, upto_nul_id by auto.
  replace (p + length (string_ m) <? 512)%nat with true; auto. unfold PACKETSZ in M.
  destruct M as [M|M]; [lia|]. assert (length (more m ++ rest m) <> 0%nat).
  { destruct (more m ++ rest m); [contradiction|discriminate]. }
  rewrite app_length in *. lia.
Qed.

Lemma date_chars w y m d h mi s : In w day_names -> valid_date y m d h mi s ->
  Forall (fun c => c <> 0) (date_text w y m d h mi s) /\ length (date_text w y m d h mi s) = 29%nat.
Proof.
  intros W (_ & M & _).
  assert (A : Forall (fun c => c <> 0) w /\ length w = 3%nat).
  { cbn [In day_names map] in W. repeat (destruct W as [<-|W]; [split; [repeat constructor; discriminate|reflexivity]|]). contradiction. }
  assert (C : Forall (fun c => c <> 0) (nth (N.to_nat (m - 1)) month_names []) /\ length (nth (N.to_nat (m - 1)) month_names []) = 3%nat).
  { assert (C : m = 1 \/ m = 2 \/ m = 3 \/ m = 4 \/ m = 5 \/ m = 6 \/ m = 7 \/ m = 8 \/ m = 9 \/ m = 10 \/ m = 11 \/ m = 12) by lia.
    repeat (destruct C as [->|C]; [split; [repeat constructor; discriminate|reflexivity]|]). subst.
    split; [repeat constructor; discriminate|reflexivity]. }
  destruct A as [A A']. destruct C as [C C']. unfold date_text, digit2, digit4. split.
  - repeat (apply Forall_app; split; auto); repeat constructor; try discriminate; lia.
  - rewrite !app_length, A', C'. reflexivity.
Qed.

Lemma discover_date m pad w y mo d h mi s : reply_ok m -> In w day_names -> valid_date y mo d h mi s ->
  string_ m = date_text w y mo d h mi s -> length (reply_bytes m ++ pad) = PACKETSZ ->
  ((length (reply_bytes m) < PACKETSZ)%nat \/ more m ++ rest m <> []) ->
  discover dn_expand 0 (Z.of_nat (length (reply_bytes m))) (reply_bytes m ++ pad) =
  Ok (0%Z, Some (seconds_since_epoch y mo d h mi s)).
Proof.
  intros O W V T L M. rewrite discover_string; auto.
  - rewrite T, parse_date by auto. reflexivity.
  - rewrite T. now apply date_chars.
Qed.

Lemma discover_only_dates m pad : reply_ok m -> Forall (fun c => c <> 0) (string_ m) ->
  length (reply_bytes m ++ pad) = PACKETSZ ->
  ((length (reply_bytes m) < PACKETSZ)%nat \/ more m ++ rest m <> []) ->
  (exists y mo d h mi s, date_like (string_ m) y mo d h mi s /\
    discover dn_expand 0 (Z.of_nat (length (reply_bytes m))) (reply_bytes m ++ pad) =
    Ok (0%Z, Some (seconds_since_epoch y mo d h mi s))) \/
  discover dn_expand 0 (Z.of_nat (length (reply_bytes m))) (reply_bytes m ++ pad) = Ok ((-1)%Z, Some 0%Z).
Proof.
  intros O Z0 L M. rewrite discover_string; auto. destruct (parse_timestamp (string_ m)) as [t r] eqn:E.
  assert (C : r = 0%Z \/ (t, r) = (0%Z, (-1)%Z)).
  { revert E. unfold parse_timestamp. destruct (strptime (string_ m)) as [[ts [|c q]]|]; intros E; injection E as <- <-; auto. }
  destruct C as [-> |C]; [left|right; now injection C as -> ->].
  destruct (parse_accepts _ _ E) as (y & mo & d & h & mi & s & D & ->). exists y, mo, d, h, mi, s. auto.
Qed.

Lemma discover_full m : reply_ok m -> length (reply_bytes m) = PACKETSZ -> more m = [] -> rest m = [] ->
  discover dn_expand 0 512 (reply_bytes m) = UB.
Proof.
  intros O L M R. destruct (find_reply m [] O) as (p & P & PL & _). rewrite app_nil_r, L in P. rewrite M, R in PL.
  apply discover_ub; auto; [exact dn_expand_expands|]. split; auto. split; auto. exists p, (length (string_ m)).
  split; [exact P|]. cbn [length] in PL. rewrite L in PL. change PACKETSZ with 512%nat in PL. lia.
Qed.

(** Deciding [plain_ok] for concrete names. *)
Definition name_charb (c : N) : bool :=
  ((48 <=? c) && (c <=? 57)) || ((65 <=? c) && (c <=? 90)) || ((97 <=? c) && (c <=? 122)) || (c =? 45) || (c =? 95).
Definition plain_okb (labels : list (list N)) : bool :=
  forallb (fun l => (1 <=? length l)%nat && (length l <=? 63)%nat && forallb name_charb l) labels &&
  (length (plain_bytes labels) <=? 128)%nat.
Lemma plain_okb_ok labels : plain_okb labels = true -> plain_ok labels.
Proof.
  unfold plain_okb. intros H. apply andb_true_iff in H as [A B]. split; [|lia].
  rewrite forallb_forall in A. apply Forall_forall. intros l I0. specialize (A l I0).
  apply andb_true_iff in A as [A C]. split; [lia|]. rewrite forallb_forall in C. apply Forall_forall.
  intros c I1. specialize (C c I1). unfold name_charb in C. unfold name_char. lia.
Qed.
