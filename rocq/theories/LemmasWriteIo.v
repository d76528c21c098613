(** Proofs about writing to a file that fails (C87). *)
From Coq Require Import NArith ZArith List Bool Arith Lia ZifyBool ZifyNat ZifyN.
From Verif Require Import Base ModelCountryCode ModelNetwork ModelNetworkList ModelStringPool ModelObjects ModelTree ModelFile ModelWriter ModelWriteIo
  SpecWriter SpecWriteIo LemmasBase LemmasFile LemmasWriter LemmasWrite LemmasOpen.
Import ListNotations.
Open Scope N_scope.

(** Records *)
Lemma concat_pieces n : (0 < n)%nat -> forall fuel l, (length l <= fuel)%nat -> concat (pieces n l fuel) = l.
Proof.
  intros P. induction fuel as [|fuel IH]; intros l H; destruct l as [|a l]; try reflexivity; cbn [length] in H; [lia|].
  cbn [pieces concat]. rewrite IH.
  - apply firstn_skipn.
  - rewrite skipn_length. cbn [length]. lia.
Qed.
Lemma concat_records n l : 0 < n -> concat (records n l) = l.
Proof. intros H. apply concat_pieces; lia. Qed.

(** ** A file that does not fail *)
Section Works.
Variable q : io.
Hypothesis T : takes_all q.
Variable old : list N.

(** Everything before the position is [pre], everything behind it as in the old file *)
Definition exact_end (s : stream) (pre : list N) : Prop := s_back s = rev pre /\ s_rest s = skipn (length pre) old.

Lemma skipn_skipn' {A} n m (l : list A) : skipn n (skipn m l) = skipn (m + n) l.
Proof. revert l. induction m as [|m IH]; intros l; [reflexivity|]. destruct l; [now rewrite !skipn_nil|]. apply IH. Qed.
Lemma skipn_app_exact {A} (a b : list A) n : skipn (length a + n) (a ++ b) = skipn n b.
Proof. induction a; [reflexivity|exact IHa]. Qed.
Lemma firstn_app_exact {A} (a b : list A) : firstn (length a) (a ++ b) = a.
Proof. induction a; [reflexivity|]. cbn [length firstn app]. now rewrite IHa. Qed.

Lemma exact_file s pre : exact_end s pre -> s_file s = overwrite pre old.
Proof using. intros [P F]. unfold s_file. now rewrite P, F, rev_append_rev, rev_involutive. Qed.
Lemma exact_more s pre b n c : exact_end s pre -> length b = n ->
  exact_end (mkStream (rev_append b (s_back s)) (skipn n (s_rest s)) c) (pre ++ b).
Proof using.
  intros [P F] <-. split; cbn [s_back s_rest].
  - now rewrite rev_append_rev, P, rev_app_distr.
  - now rewrite F, skipn_skipn', app_length.
Qed.

Lemma fwrite_eq s b : fwrite q s b = (mkStream (rev_append b (s_back s)) (skipn (length b) (s_rest s)) (S (s_calls s)), length b).
Proof using T. unfold fwrite. rewrite Nat.min_r by apply T. now rewrite firstn_all. Qed.
Lemma fwrite_exact s pre b : exact_end s pre -> exists s', fwrite q s b = (s', length b) /\ exact_end s' (pre ++ b).
Proof using T. intros E. rewrite fwrite_eq. eexists. split; [reflexivity|]. now apply exact_more. Qed.

Lemma write_records_exact l : forall s pre off, exact_end s pre ->
  exists s', write_records q s off l = (s', off + N.of_nat (length (concat l))) /\ exact_end s' (pre ++ concat l).
Proof using T.
  induction l as [|b l IH]; intros s pre off E; cbn [write_records concat].
  - exists s. cbn [length]. rewrite N.add_0_r, app_nil_r. now split.
  - destruct (fwrite_exact s pre b E) as (s1 & -> & E1). destruct (IH s1 _ (off + N.of_nat (length b)) E1) as (s2 & -> & E2).
    exists s2. rewrite app_assoc. split; [|exact E2]. f_equal. rewrite app_length. lia.
Qed.

Lemma align_step off : off mod PAGE_SIZE <> 0 ->
  (PAGE_SIZE - off mod PAGE_SIZE) mod PAGE_SIZE = 1 + (PAGE_SIZE - (off + 1) mod PAGE_SIZE) mod PAGE_SIZE.
Proof using.
  unfold PAGE_SIZE. intros H. pose proof (N.mod_lt off 4096 ltac:(lia)) as L. pose proof (N.div_mod off 4096 ltac:(lia)) as D.
  set (r := off mod 4096) in *. set (d := off / 4096) in *.
  destruct (N.eq_dec r 4095) as [E|E].
  - assert (X : (off + 1) mod 4096 = 0).
    { symmetry. apply (N.mod_unique _ _ (d + 1)); lia. }
    rewrite X, E. reflexivity.
  - assert (X : (off + 1) mod 4096 = r + 1).
    { symmetry. apply (N.mod_unique _ _ d); lia. }
    rewrite X. rewrite !N.mod_small; lia.
Qed.
Lemma align_exact k : forall s pre off fuel, exact_end s pre ->
  N.to_nat ((PAGE_SIZE - off mod PAGE_SIZE) mod PAGE_SIZE) = k -> (k <= fuel)%nat ->
  exists s', ModelWriteIo.align_page_boundary q s off fuel = Ok (s', off + N.of_nat k) /\ exact_end s' (pre ++ repeat 0 k).
Proof using T.
  induction k as [|k IH]; intros s pre off fuel E K F.
  - assert (Z : off mod PAGE_SIZE = 0).
    { unfold PAGE_SIZE in *. pose proof (N.mod_lt off 4096 ltac:(lia)).
      destruct (N.eq_dec (off mod 4096) 0) as [Q|Q]; [exact Q|]. rewrite N.mod_small in K; lia. }
    exists s. cbn [repeat]. rewrite app_nil_r. split; [|exact E].
    destruct fuel; cbn [align_page_boundary]; rewrite Z; cbn; do 2 f_equal; lia.
  - assert (Z : off mod PAGE_SIZE <> 0).
    { intros Z. rewrite Z in K. cbn in K. discriminate. }
    destruct fuel as [|fuel]; [lia|]. cbn [align_page_boundary].
    rewrite (proj2 (N.eqb_neq _ _) Z).
    destruct (fwrite_exact s pre [0] E) as (s1 & -> & E1). cbn [length].
    pose proof (align_step off Z) as X.
    destruct (IH s1 (pre ++ [0]) (off + N.of_nat 1) fuel E1) as (s2 & A2 & E2); [|lia|].
    + change (N.of_nat 1) with 1. lia.
    + exists s2. rewrite A2. split; [do 2 f_equal; lia|]. cbn [repeat].
      replace (pre ++ 0 :: repeat 0 k) with ((pre ++ [0]) ++ repeat 0 k) by (now rewrite <- app_assoc). exact E2.
Qed.

Section Sections.
Variable pre0 : list N.
Variable ctz0 : nat.
Variable held : network -> bool.
Variable hole : nat -> N * N * (N * N).
Variable block0 : cc2.
Variable fuel : nat.
Hypothesis F : (N.to_nat PAGE_SIZE <= fuel)%nat.

Lemma al s out : exact_end s (pre0 ++ out) ->
  exists s', align_page_boundary q s (offset out) fuel = Ok (s', offset (align out)) /\ exact_end s' (pre0 ++ align out).
Proof using T F.
  clear hole block0 held. intros E. destruct (align_exact (N.to_nat ((PAGE_SIZE - offset out mod PAGE_SIZE) mod PAGE_SIZE)) s _ (offset out) fuel E eq_refl) as (s' & A & E').
  - unfold PAGE_SIZE in *. pose proof (N.mod_lt (4096 - offset out mod 4096) 4096 ltac:(lia)). lia.
  - exists s'. rewrite A. rewrite <- app_assoc in E'. split; [|exact E'].
    unfold align. rewrite offset_app, repeat_length. reflexivity.
Qed.
Lemma recs s out n bytes : 0 < n -> exact_end s (pre0 ++ out) ->
  exists s', write_records q s (offset out) (records n bytes) = (s', offset (out ++ bytes)) /\ exact_end s' (pre0 ++ out ++ bytes).
Proof using T.
  clear hole block0 held. intros P E. destruct (write_records_exact (records n bytes) s _ (offset out) E) as (s' & A & E').
  rewrite concat_records in A, E' by exact P. exists s'. rewrite A, offset_app. rewrite <- app_assoc in E'. now split.
Qed.

Lemma sections_same w now s : exact_end s (pre0 ++ []) ->
  match write_sections ctz0 held hole block0 w now with
  | Ok (w', h, out) => exists s', write_sections_io ctz0 held hole block0 q fuel w now s (offset []) = Ok (w', h, s') /\
                                  exact_end s' (pre0 ++ out)
  | Err n => write_sections_io ctz0 held hole block0 q fuel w now s (offset []) = Err n
  | UB => write_sections_io ctz0 held hole block0 q fuel w now s (offset []) = UB
  | Fuel => write_sections_io ctz0 held hole block0 q fuel w now s (offset []) = Fuel
  end.
Proof using T F.
  intros E. unfold write_sections, write_sections_io.
  destruct (al s [] E) as (s1 & -> & E1). cbn [bind].
  destruct (write_ases _ _) as [[p bytes]| | |]; cbn [bind]; try reflexivity.
  destruct (recs s1 _ AS_SIZE bytes eq_refl E1) as (s2 & -> & E2). 
  destruct (al s2 _ E2) as (s3 & -> & E3). cbn [bind].
  destruct (cleanup _ _ _) as [t| | |]; cbn [bind]; try reflexivity.
  destruct (write_nodes _ _ _ _) as [[nodes nets]| | |]; cbn [bind]; try reflexivity.
  destruct (recs s3 _ NODE_SIZE (flat_map enc_node nodes) eq_refl E3) as (s4 & -> & E4).
  destruct (al s4 _ E4) as (s5 & -> & E5). cbn [bind].
  destruct (recs s5 _ NETWORK_SIZE (write_networks hole 0 nets) eq_refl E5) as (s6 & -> & E6).
  destruct (al s6 _ E6) as (s7 & -> & E7). cbn [bind].
  destruct (write_countries _ _ _) as [[p2 bytes2]| | |]; cbn [bind]; try reflexivity.
  destruct (recs s7 _ COUNTRY_SIZE bytes2 eq_refl E7) as (s8 & -> & E8).
  destruct (al s8 _ E8) as (s9 & -> & E9). cbn [bind].
  match goal with |- context [fwrite q s9 ?b] => destruct (fwrite_exact s9 _ b E9) as (s10 & -> & E10) end.
  exists s10. split; [reflexivity|]. rewrite <- app_assoc in E10. exact E10.
Qed.
End Sections.
End Works.

(** ** Without failures *)
Lemma magic_nat : length (MAGIC ++ [VERSION_1]) = N.to_nat MAGIC_SIZE.
Proof. reflexivity. Qed.

Lemma header_end (q : io) (T : takes_all q) old (m gap out hd : list N) s : length gap = length hd ->
  exact_end old s (m ++ gap ++ out) ->
  s_file (fst (fwrite q (fseek_set s (length m)) hd)) = overwrite (m ++ hd ++ out) old.
Proof.
  intros L E. rewrite (fwrite_eq q T). unfold fseek_set. rewrite (exact_file _ _ _ E). unfold s_file. cbn [fst s_back s_rest].
  unfold overwrite. rewrite <- !app_assoc, firstn_app_exact, !rev_append_rev, rev_app_distr, !rev_involutive, skipn_skipn', skipn_app_exact, <- app_assoc.
  rewrite <- L, <- (Nat.add_0_r (length gap)) at 1. rewrite skipn_app_exact. cbn [skipn]. do 4 f_equal. rewrite !app_length. lia.
Qed.

Lemma sections_keep ctz0 held hole block0 w now w1 h out :
  write_sections ctz0 held hole block0 w now = Ok (w1, h, out) ->
  w_sig1 w1 = w_sig1 w /\ w_sig2 w1 = w_sig2 w /\ length (h_padding h) = 32%nat.
Proof.
  unfold write_sections.
  destruct (write_ases _ _) as [[p bytes]| | |]; cbn [bind]; try discriminate.
  destruct (cleanup _ _ _) as [t| | |]; cbn [bind]; try discriminate.
  destruct (write_nodes _ _ _ _) as [[nodes nets]| | |]; cbn [bind]; try discriminate.
  destruct (write_countries _ _ _) as [[p2 bytes2]| | |]; cbn [bind]; try discriminate.
  intros WS. apply ok3 in WS as (<- & <- & <-). split; [|split]; reflexivity.
Qed.

Section Rest.
Variable key1 key2 : option evp.
Variable q : io.
Hypothesis T : takes_all q.
Hypothesis K : seeks_all q.
Variable m gap out old : list N.
Variable h : header.
Variable w1 : writer.
Variable s0 : stream.
Hypothesis E0 : exact_end old s0 (m ++ gap ++ out).
Let f := overwrite (m ++ gap ++ out) old.
Hypothesis O1 : sig_ok (w_sig1 w1).
Hypothesis O2 : sig_ok (w_sig2 w1).
Hypothesis Hp : length (h_padding h) = 32%nat.
Hypothesis M : length m = N.to_nat MAGIC_SIZE.
Hypothesis G : N.of_nat (length gap) = HEADER_SIZE.
Lemma rest_same :
  (do (r, s1) <- match key1 with
                    | Some k => create_signature k (enc_header h) f (w_sig1 w1)
                    | None => Ok (0%Z, w_sig1 w1)
                    end;
      let w := with_sigs w1 s1 (w_sig2 w1) in
      if negb (r =? 0)%Z then Ok (r, w, f)
      else
        do (r, s2) <- match key2 with
                      | Some k => create_signature k (enc_header h) f (w_sig2 w)
                      | None => Ok (0%Z, w_sig2 w)
                      end;
        let w := with_sigs w (w_sig1 w) s2 in
        if negb (r =? 0)%Z then Ok (r, w, f)
        else if negb (seeks q 2) then Ok ((-1)%Z, w, f)
        else
          let b := enc_header (sign_header h (w_sig1 w) (w_sig2 w)) in
          let (s, t) := fwrite q (fseek_set s0 (N.to_nat MAGIC_SIZE)) b in
          if (t <? length b)%nat then Ok (0%Z, w, s_file s)
          else if negb (seeks q 3) then Ok ((-1)%Z, w, s_file s)
          else Ok (0%Z, w, s_file s)) =
  (do (r, s1) <- match key1 with
                  | Some k => create_signature k (enc_header h) f (w_sig1 w1)
                  | None => Ok (0%Z, w_sig1 w1)
                  end;
    let w := with_sigs w1 s1 (w_sig2 w1) in
    if negb (r =? 0)%Z then Ok (r, w, f)
    else
      do (r, s2) <- match key2 with
                    | Some k => create_signature k (enc_header h) f (w_sig2 w)
                    | None => Ok (0%Z, w_sig2 w)
                    end;
      let w := with_sigs w (w_sig1 w) s2 in
      if negb (r =? 0)%Z then Ok (r, w, f)
      else Ok (0%Z, w, overwrite (m ++ enc_header (sign_header h (w_sig1 w) (w_sig2 w)) ++ out) old)).
Proof using T K O1 O2 Hp M G E0.
  destruct (match key1 with Some k => _ | None => _ end) as [[r s1]| | |] eqn:K1; cbn [bind]; try reflexivity.
  apply key_signature_ok in K1; [|exact O1]. cbv zeta.
  destruct (negb (r =? 0)%Z); [reflexivity|]. cbn [w_sig1 w_sig2 with_sigs].
  destruct (match key2 with Some k => _ | None => _ end) as [[r2 s2]| | |] eqn:K2; cbn [bind]; try reflexivity.
  apply key_signature_ok in K2; [|exact O2].
  destruct (negb (r2 =? 0)%Z); [reflexivity|]. cbn [w_sig1 w_sig2 with_sigs]. rewrite !K. cbn [negb].
  assert (Lh : N.of_nat (length (enc_header (sign_header h s1 s2))) = HEADER_SIZE).
  { apply enc_header_length; unfold sign_header; cbn [h_sig1 h_sig2 h_padding].
    - pose proof (sig_field_length _ K1). lia.
    - pose proof (sig_field_length _ K2). lia.
    - exact Hp. }
  assert (Lg : length gap = length (enc_header (sign_header h s1 s2))) by lia.
  pose proof (header_end q T old m gap out _ s0 Lg E0) as X. rewrite M in X. revert X.
  rewrite (fwrite_eq q T). cbn [fst]. rewrite Nat.ltb_irrefl. intros X. now rewrite X.
Qed.
End Rest.

Theorem works_same ctz0 held key1 key2 hole block0 q fuel w old now version : takes_all q -> seeks_all q ->
  (N.to_nat PAGE_SIZE <= fuel)%nat -> sig_ok (w_sig1 w) -> sig_ok (w_sig2 w) ->
  writer_write_io ctz0 held key1 key2 hole block0 q fuel w old now version =
  writer_write ctz0 held key1 key2 hole block0 w old now version.
Proof.
  intros T K F O1 O2. unfold writer_write_io, writer_write.
  destruct (negb _); [reflexivity|]. rewrite (K 0%nat), (K 1%nat). cbn [negb].
  pose proof magic_nat as M. replace (offset []) with (N.of_nat (N.to_nat MAGIC_SIZE) + HEADER_SIZE) in * by reflexivity.
  set (m := MAGIC ++ [VERSION_1]) in *. clearbody m. cbv zeta.
  set (gap := firstn _ (skipn _ old ++ _)).
  assert (E : exact_end old (mkStream [] old 0) []) by (split; reflexivity).
  destruct (fwrite_exact q T old _ [] m E) as (s0 & -> & E0). cbn [app] in E0. clear E. rewrite M.
  assert (Lg : N.of_nat (length gap) = HEADER_SIZE).
  { unfold gap. rewrite firstn_length, app_length, repeat_length. lia. }
  assert (E : exact_end old (fseek_cur s0 (N.to_nat HEADER_SIZE)) ((m ++ gap) ++ [])).
  { rewrite app_nil_r. assert (X : length gap = N.to_nat HEADER_SIZE) by lia.
    apply (exact_more old s0 m gap _ (s_calls s0) E0) in X. unfold fseek_cur. rewrite (proj2 E0), M in X |- *. exact X. }
  clearbody gap.
  pose proof (sections_same q T old _ ctz0 held hole block0 fuel F w now _ E) as X.
  change (offset []) with (N.of_nat (N.to_nat MAGIC_SIZE) + HEADER_SIZE) in X.
  destruct (write_sections ctz0 held hole block0 w now) as [[[w1 h] out]| | |] eqn:WS; [|now rewrite X..].
  destruct X as (s & -> & Es). cbn [bind]. rewrite <- app_assoc in Es. rewrite (exact_file _ _ _ Es).
  apply sections_keep in WS. destruct WS as (W1 & W2 & W3).
  apply rest_same; auto; rewrite ?W1, ?W2; assumption.
Qed.

(** ** With failures *)
Lemma align_returns q fuel : forall s off, align_page_boundary q s off fuel = Fuel \/ exists s' off', align_page_boundary q s off fuel = Ok (s', off').
Proof.
  induction fuel as [|fuel IH]; intros s off; cbn [align_page_boundary]; destruct (_ =? 0); eauto.
  destruct (fwrite q s [0]) as [s1 t]. apply IH.
Qed.
Ltac aligned := match goal with |- context [align_page_boundary ?q ?s ?o ?f] =>
  let E := fresh "E" in destruct (align_returns q f s o) as [E|(? & ? & E)]; rewrite E; clear E; cbn [bind]; [now left|] end.
Lemma sections_return ctz0 held hole block0 q fuel w now s off : (exists r, write_sections ctz0 held hole block0 w now = Ok r) ->
  write_sections_io ctz0 held hole block0 q fuel w now s off = Fuel \/
  exists r, write_sections_io ctz0 held hole block0 q fuel w now s off = Ok r.
Proof.
  unfold write_sections, write_sections_io. intros [r H]. revert H.
  aligned.
  destruct (write_ases _ _) as [[p bytes]| | |]; cbn [bind]; try discriminate.
  destruct (write_records _ _ _ _) as [s1 off1]. aligned.
  destruct (cleanup _ _ _) as [t| | |]; cbn [bind]; try discriminate.
  destruct (write_nodes _ _ _ _) as [[nodes nets]| | |]; cbn [bind]; try discriminate.
  destruct (write_records _ _ _ _) as [s2 off2]. aligned.
  destruct (write_records _ _ _ _) as [s3 off3]. aligned.
  destruct (write_countries _ _ _) as [[p2 bytes2]| | |]; cbn [bind]; try discriminate.
  destruct (write_records _ _ _ _) as [s4 off4]. aligned.
  destruct (fwrite _ _ _) as [s5 t5]. intros _. right. eexists. reflexivity.
Qed.

Theorem never_reported ctz0 held hole block0 q fuel w old now version r w' f : seeks_all q ->
  writer_write ctz0 held None None hole block0 w old now version = Ok (r, w', f) -> r = 0%Z ->
  writer_write_io ctz0 held None None hole block0 q fuel w old now version = Fuel \/
  exists w1 f1, writer_write_io ctz0 held None None hole block0 q fuel w old now version = Ok (0%Z, w1, f1).
Proof.
  intros K H R. unfold writer_write in H. unfold writer_write_io.
  destruct (negb _); [exfalso; assert (X : (-1)%Z = r) by congruence; lia|].
  rewrite (K 0%nat), (K 1%nat). cbn [negb]. destruct (fwrite q _ _) as [s t]. cbv zeta.
  match goal with |- context [write_sections_io _ _ _ _ q fuel w now ?a ?b] =>
    destruct (sections_return ctz0 held hole block0 q fuel w now a b) as [E|[[[w1 h] s1] E]]; rewrite ?E; cbn [bind] end.
  - destruct (write_sections _ _ _ _ _ _); try discriminate. eauto.
  - now left.
  - right. cbn [negb Z.eqb]. rewrite (K 2%nat), (K 3%nat). cbn [negb].
    destruct (fwrite q _ _) as [s2 t2]. destruct (_ <? _)%nat; eauto.
Qed.

Theorem endless ctz0 held key1 key2 hole block0 q fuel w old now : seeks_all q -> full_disk q ->
  writer_write_io ctz0 held key1 key2 hole block0 q fuel w old now VERSION_1 = Fuel.
Proof.
  intros K D. unfold writer_write_io. change (negb ((VERSION_1 =? 0) || (VERSION_1 =? VERSION_1))) with false. cbn iota. rewrite (K 0%nat), (K 1%nat). cbn [negb].
  unfold fwrite at 1. cbn [s_calls s_back s_rest].
  set (t := Nat.min _ (length (MAGIC ++ [VERSION_1]))). assert (L : (t <= 8)%nat) by apply Nat.le_min_r.
  cbv zeta. unfold write_sections_io.
  assert (A : forall fuel s off, (1 <= s_calls s)%nat -> off mod PAGE_SIZE <> 0 -> align_page_boundary q s off fuel = Fuel).
  { clear - D. induction fuel as [|fuel IH]; intros s off C O; cbn [align_page_boundary]; rewrite (proj2 (N.eqb_neq _ _) O); [reflexivity|].
    unfold fwrite. rewrite (D _ _ C). cbn [Nat.min]. rewrite N.add_0_r. apply IH; [cbn [s_calls]; lia|exact O]. }
  rewrite A; [reflexivity|cbn [s_calls fseek_cur]; lia|].
  assert (X : (N.of_nat t + HEADER_SIZE) mod PAGE_SIZE = N.of_nat t + 96).
  { unfold HEADER_SIZE, PAGE_SIZE. symmetry. apply (N.mod_unique _ _ 1); lia. }
  rewrite X. lia.
Qed.

Theorem seek_reported ctz0 held key1 key2 hole block0 q fuel w old now version w' f :
  writer_write_io ctz0 held key1 key2 hole block0 q fuel w old now version = Ok (0%Z, w', f) ->
  seeks q 0 = true /\ seeks q 1 = true /\ seeks q 2 = true /\ (takes_all q -> seeks q 3 = true).
Proof.
  unfold writer_write_io. destruct (negb (_ || _)); [intros H; exfalso; congruence|].
  destruct (seeks q 0); cbn [negb]; [|intros H; exfalso; congruence].
  destruct (fwrite q _ _) as [s t]. destruct (seeks q 1); cbn [negb]; [|intros H; exfalso; congruence].
  cbv zeta. destruct (write_sections_io _ _ _ _ _ _ _ _ _ _) as [[[w1 h] s1]| | |]; cbn [bind]; try discriminate.
  destruct (match key1 with Some k => _ | None => _ end) as [[r g1]| | |]; cbn [bind]; try discriminate.
  destruct (r =? 0)%Z eqn:R; cbn [negb]; [|intros H; exfalso; assert (r = 0%Z) by congruence; lia].
  destruct (match key2 with Some k => _ | None => _ end) as [[r2 g2]| | |]; cbn [bind]; try discriminate.
  destruct (r2 =? 0)%Z eqn:R2; cbn [negb]; [|intros H; exfalso; assert (r2 = 0%Z) by congruence; lia].
  destruct (seeks q 2); cbn [negb]; [|intros H; exfalso; congruence].
  destruct (seeks q 3); [intros _; split; [|split; [|split]]; auto|].
  intros H. split; [|split; [|split]]; auto. intros T. rewrite (fwrite_eq q T), Nat.ltb_irrefl in H. cbn [negb] in H. exfalso. congruence.
Qed.

(** ** The file does not get shorter *)
Lemma s_file_length s : length (s_file s) = (length (s_back s) + length (s_rest s))%nat.
Proof. unfold s_file. rewrite rev_append_rev, app_length, rev_length. lia. Qed.
Lemma fwrite_longer q s b s' t : fwrite q s b = (s', t) -> (length (s_file s) <= length (s_file s'))%nat.
Proof.
  unfold fwrite. intros E. assert (X := f_equal fst E). cbn [fst] in X. subst s'. rewrite !s_file_length. cbn [s_back s_rest].
  rewrite rev_append_rev, app_length, rev_length, firstn_length, skipn_length. lia.
Qed.
Lemma align_longer q fuel : forall s off s' off', align_page_boundary q s off fuel = Ok (s', off') -> (length (s_file s) <= length (s_file s'))%nat.
Proof.
  induction fuel as [|fuel IH]; intros s off s' off'; cbn [align_page_boundary]; destruct (_ =? 0).
  - intros E. assert (s = s') by congruence. subst. lia.
  - intros E. exfalso. congruence.
  - intros E. assert (s = s') by congruence. subst. lia.
  - destruct (fwrite q s [0]) as [s1 t] eqn:W. intros E. apply IH in E. apply fwrite_longer in W. lia.
Qed.
Lemma records_longer q l : forall s off s' off', write_records q s off l = (s', off') -> (length (s_file s) <= length (s_file s'))%nat.
Proof.
  induction l as [|b l IH]; intros s off s' off'; cbn [write_records].
  - intros E. assert (s = s') by congruence. subst. lia.
  - destruct (fwrite q s b) as [s1 t] eqn:W. intros E. apply IH in E. apply fwrite_longer in W. lia.
Qed.
Ltac al := match goal with |- context [align_page_boundary ?q ?s ?o ?f] =>
  let E := fresh "E" in destruct (align_page_boundary q s o f) as [[? ?]| | |] eqn:E; cbn [bind]; try discriminate; apply align_longer in E end.
Ltac wr := match goal with |- context [write_records ?q ?s ?o ?f] =>
  let E := fresh "E" in destruct (write_records q s o f) as [? ?] eqn:E; apply records_longer in E end.
Lemma sections_longer ctz0 held hole block0 q fuel w now s off w1 h s1 :
  write_sections_io ctz0 held hole block0 q fuel w now s off = Ok (w1, h, s1) -> (length (s_file s) <= length (s_file s1))%nat.
Proof.
  unfold write_sections_io. al.
  destruct (write_ases _ _) as [[p bytes]| | |]; cbn [bind]; try discriminate.
  wr. al.
  destruct (cleanup _ _ _) as [t| | |]; cbn [bind]; try discriminate.
  destruct (write_nodes _ _ _ _) as [[nodes nets]| | |]; cbn [bind]; try discriminate.
  wr. al. wr. al.
  destruct (write_countries _ _ _) as [[p2 bytes2]| | |]; cbn [bind]; try discriminate.
  wr. al.
  destruct (fwrite _ _ _) as [last5 t5] eqn:W. apply fwrite_longer in W. intros WS. apply ok3 in WS as (<- & <- & <-). lia.
Qed.
Lemma fseek_set_same s n : length (s_file (fseek_set s n)) = length (s_file s).
Proof. rewrite s_file_length. unfold fseek_set. cbn [s_back s_rest]. rewrite rev_length, firstn_length, skipn_length. lia. Qed.
Lemma fseek_cur_longer s n : (length (s_file s) <= length (s_file (fseek_cur s n)))%nat.
Proof.
  rewrite !s_file_length. unfold fseek_cur. cbn [s_back s_rest].
  rewrite rev_append_rev, app_length, rev_length, firstn_length, skipn_length, app_length, repeat_length. lia.
Qed.
Lemma same3 {A B C} (r1 : A) (w1 : B) (f1 : C) r2 w2 f2 : Ok (r1, w1, f1) = Ok (r2, w2, f2) -> f1 = f2.
Proof. congruence. Qed.
Lemma longer ctz0 held key1 key2 hole block0 q fuel w old now v r w' f :
  writer_write_io ctz0 held key1 key2 hole block0 q fuel w old now v = Ok (r, w', f) -> (length old <= length f)%nat.
Proof.
  unfold writer_write_io. destruct (negb (_ || _)); [intros E; apply same3 in E; subst f; lia|].
  destruct (seeks q 0); cbn [negb]; [|intros E; apply same3 in E; subst f; lia].
  destruct (fwrite q _ _) as [s t] eqn:W. apply fwrite_longer in W. change (s_file (mkStream [] old 0)) with old in W.
  destruct (seeks q 1); cbn [negb]; [|intros E; apply same3 in E; subst f; exact W].
  assert (L := fseek_cur_longer s (N.to_nat HEADER_SIZE)).
  destruct (write_sections_io _ _ _ _ _ _ _ _ _ _) as [[[w1 h] s1]| | |] eqn:WS; cbn [bind]; try discriminate.
  apply sections_longer in WS.
  match goal with |- context [bind ?m _] => destruct m as [[r1 x1]| | |]; cbn [bind]; try discriminate end.
  destruct (negb (r1 =? 0)%Z); [intros E; apply same3 in E; subst f; lia|].
  match goal with |- context [bind ?m _] => destruct m as [[r2 x2]| | |]; cbn [bind]; try discriminate end.
  destruct (negb (r2 =? 0)%Z); [intros E; apply same3 in E; subst f; lia|].
  destruct (seeks q 2); cbn [negb]; [|intros E; apply same3 in E; subst f; lia].
  assert (L2 := fseek_set_same s1 (N.to_nat MAGIC_SIZE)).
  destruct (fwrite q (fseek_set _ _) _) as [s2 t2] eqn:W2. apply fwrite_longer in W2. rewrite L2 in W2. clear L2.
  destruct (_ <? _)%nat; [intros E; apply same3 in E; subst f; lia|].
  destruct (seeks q 3); cbn [negb]; intros E; apply same3 in E; subst f; lia.
Qed.

(** ** The position is the offset that the writer counts *)
Definition counted (s : stream) (off : N) : Prop := N.of_nat (length (s_back s)) = off.
Lemma fwrite_counted q s b s' t off : fwrite q s b = (s', t) -> counted s off -> counted s' (off + N.of_nat t).
Proof.
  unfold fwrite, counted. intros E C. assert (X := f_equal fst E). assert (Y := f_equal snd E). cbn [fst snd] in X, Y. subst s'. cbn [s_back].
  rewrite rev_append_rev, app_length, rev_length, firstn_length. lia.
Qed.
Lemma align_counted q fuel : forall s off s' off', align_page_boundary q s off fuel = Ok (s', off') -> counted s off -> counted s' off'.
Proof.
  induction fuel as [|fuel IH]; intros s off s' off'; cbn [align_page_boundary]; destruct (_ =? 0).
  - intros E C. assert (s = s' /\ off = off') as [<- <-] by (split; congruence). exact C.
  - intros E. exfalso. congruence.
  - intros E C. assert (s = s' /\ off = off') as [<- <-] by (split; congruence). exact C.
  - destruct (fwrite q s [0]) as [s1 t] eqn:W. intros E C. eapply IH; [exact E|]. eapply fwrite_counted; eauto.
Qed.
Lemma records_counted q l : forall s off s' off', write_records q s off l = (s', off') -> counted s off -> counted s' off'.
Proof.
  induction l as [|b l IH]; intros s off s' off'; cbn [write_records].
  - intros E C. assert (s = s' /\ off = off') as [<- <-] by (split; congruence). exact C.
  - destruct (fwrite q s b) as [s1 t] eqn:W. intros E C. eapply IH; [exact E|]. eapply fwrite_counted; eauto.
Qed.
Ltac alc C := match goal with |- context [align_page_boundary ?q ?s ?o ?f] =>
  let E := fresh "E" in destruct (align_page_boundary q s o f) as [[? ?]| | |] eqn:E; cbn [bind]; try discriminate; apply align_counted in E; [clear C; rename E into C|exact C] end.
Ltac wrc C := match goal with |- context [write_records ?q ?s ?o ?f] =>
  let E := fresh "E" in destruct (write_records q s o f) as [? ?] eqn:E; apply records_counted in E; [clear C; rename E into C|exact C] end.
Lemma pool_within ctz0 held hole block0 q fuel w now s off w1 h s1 : counted s off ->
  write_sections_io ctz0 held hole block0 q fuel w now s off = Ok (w1, h, s1) ->
  h_pool_offset h + h_pool_length h = N.of_nat (length (s_back s1)) /\ h_pool_offset h + h_pool_length h <= N.of_nat (length (s_file s1)).
Proof.
  unfold write_sections_io. intros C. alc C.
  destruct (write_ases _ _) as [[p bytes]| | |]; cbn [bind]; try discriminate.
  wrc C. alc C.
  destruct (cleanup _ _ _) as [t| | |]; cbn [bind]; try discriminate.
  destruct (write_nodes _ _ _ _) as [[nodes nets]| | |]; cbn [bind]; try discriminate.
  wrc C. alc C. wrc C. alc C.
  destruct (write_countries _ _ _) as [[p2 bytes2]| | |]; cbn [bind]; try discriminate.
  wrc C. alc C.
  destruct (fwrite _ _ _) as [last5 t5] eqn:W. eapply fwrite_counted in W; [|exact C]. intros WS. apply ok3 in WS as (<- & <- & <-). cbn [h_pool_offset h_pool_length].
  unfold counted in W. split; [symmetry; exact W|]. rewrite s_file_length. clear - W. lia.
Qed.
Lemma start_counted q s old : fwrite q (mkStream [] old 0) (MAGIC ++ [VERSION_1]) = s -> counted (fseek_cur (fst s) (N.to_nat HEADER_SIZE)) (N.of_nat (snd s) + HEADER_SIZE).
Proof.
  intros E. destruct s as [s t]. apply (fwrite_counted _ _ _ _ _ 0) in E; [|reflexivity]. unfold counted in *. cbn [fst snd]. unfold fseek_cur. cbn [s_back].
  rewrite rev_append_rev, app_length, rev_length, firstn_length, app_length, repeat_length. lia.
Qed.
