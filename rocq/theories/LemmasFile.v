(** Reading back what was written: octets at offsets, records in tables. *)
From Coq Require Import NArith ZArith List Bool Arith Lia ZifyBool ZifyNat ZifyN.
From Verif Require Import Base ModelCountryCode ModelNetwork ModelFile ModelDatabase LemmasBase.
Import ListNotations.
Open Scope N_scope.

Lemma rd_at f a x b off len : f = a ++ x ++ b -> off = N.of_nat (length a) -> len = N.of_nat (length x) ->
  rd f off len = Ok x.
Proof.
  intros -> -> ->. unfold rd. replace (_ <=? _) with true by (rewrite !app_length; lia).
  rewrite !Nat2N.id. f_equal. rewrite skipn_app, skipn_all, Nat.sub_diag. cbn [skipn app].
  rewrite firstn_app, Nat.sub_diag, firstn_all. cbn [firstn]. apply app_nil_r.
Qed.

Lemma rd_length f off len x : rd f off len = Ok x -> length x = N.to_nat len.
Proof.
  unfold rd. destruct (N.leb_spec (off + len) (N.of_nat (length f))) as [L|]; [|discriminate]. intros E.
  apply (f_equal (fun r => match r with Ok y => y | _ => x end)) in E. rewrite <- E.
  rewrite firstn_length, skipn_length. lia.
Qed.

Lemma check_small f off len : flen f < 2 ^ 64 -> len <= flen f ->
  check_boundaries f off len = true <-> off + len <= flen f.
Proof.
  intros H L. unfold check_boundaries. rewrite N.leb_le.
  replace (flen f + (2 ^ 64 - len)) with (flen f - len + 1 * 2 ^ 64) by lia.
  rewrite N.mod_add by lia. rewrite N.mod_small by lia. lia.
Qed.

Section Table.
Context {A : Type}.
Variable enc : A -> list N.
Variable size : nat.
Hypothesis enc_size : forall x, length (enc x) = size.

Lemma flat_size l : length (flat_map enc l) = (size * length l)%nat.
Proof. induction l as [|x l IH]; cbn [flat_map length]; [lia|]. rewrite app_length, enc_size, IH. lia. Qed.

Lemma rd_table f a l b off i x : f = a ++ flat_map enc l ++ b -> off = N.of_nat (length a) ->
  nth_error l i = Some x -> rd f (off + N.of_nat i * N.of_nat size) (N.of_nat size) = Ok (enc x).
Proof.
  intros -> -> E. apply nth_error_split in E as (l1 & l2 & -> & <-).
  apply rd_at with (a := a ++ flat_map enc l1) (b := flat_map enc l2 ++ b).
  - rewrite flat_map_app. cbn [flat_map]. now rewrite <- !app_assoc.
  - rewrite app_length, flat_size. lia.
  - now rewrite enc_size.
Qed.

Lemma table_object f a l b off count i x : f = a ++ flat_map enc l ++ b -> off = N.of_nat (length a) ->
  flen f < 2 ^ 64 -> nth_error l i = Some x ->
  object f (off, count) (N.of_nat size) (N.of_nat i) = Some (off + N.of_nat i * N.of_nat size).
Proof.
  intros E -> F X. unfold object. cbn [fst].
  assert (L : (i < length l)%nat) by (apply nth_error_Some; congruence).
  assert (B : N.of_nat (length a) + N.of_nat i * N.of_nat size + N.of_nat size <= flen f).
  { unfold flen. rewrite E, !app_length, flat_size.
    assert (M : (S i * size <= length l * size)%nat) by (apply Nat.mul_le_mono_r; lia). lia. }
  replace (check_boundaries _ _ _) with true; auto. symmetry. apply check_small; auto. lia.
Qed.
End Table.

Lemma enc_node_length r : length (enc_node r) = 12%nat.
Proof. destruct r as [[z o] n]. unfold enc_node. now rewrite !app_length, !to_be_length. Qed.
Lemma enc_network_length h n : length (enc_network h n) = 12%nat.
Proof. destruct h as [[a b] [c e]]. unfold enc_network. rewrite !app_length, !to_be_length. reflexivity. Qed.
Lemma enc_as_length a b : length (enc_as a b) = 8%nat.
Proof. unfold enc_as. now rewrite !app_length, !to_be_length. Qed.
Lemma enc_country_length a b c : length (enc_country a b c) = 8%nat.
Proof. unfold enc_country. rewrite !app_length, !to_be_length. reflexivity. Qed.

Lemma field_here k n r : field (to_be k n ++ r) 0 k = n mod 256 ^ N.of_nat k.
Proof.
  unfold field. cbn [skipn]. rewrite firstn_app, to_be_length, Nat.sub_diag. cbn [firstn]. rewrite app_nil_r.
  rewrite firstn_all2 by (rewrite to_be_length; lia). apply be_to_be_mod.
Qed.
Lemma field_end k n : field (to_be k n) 0 k = n mod 256 ^ N.of_nat k.
Proof. rewrite <- (app_nil_r (to_be k n)). apply field_here. Qed.

Lemma field_skip l r off len : (length l <= off)%nat -> field (l ++ r) off len = field r (off - length l) len.
Proof. intros H. unfold field. rewrite skipn_app, (skipn_all2 l) by lia. reflexivity. Qed.

Lemma field_to_be k n r off len : (k <= off)%nat -> field (to_be k n ++ r) off len = field r (off - k) len.
Proof. intros H. rewrite field_skip by (rewrite to_be_length; lia). now rewrite to_be_length. Qed.

Ltac fields := repeat (rewrite field_to_be by lia; cbn [Nat.sub]); first [apply field_here|apply field_end].

Lemma dec_enc_node z o n : dec_node (enc_node (z, o, n)) = (z mod 2 ^ 32, o mod 2 ^ 32, n mod 2 ^ 32).
Proof.
  unfold dec_node, enc_node. f_equal; [f_equal|]; fields.
Qed.

Lemma header_fields h : let l := enc_header h in
  field l 0 8 = h_created_at h mod 2 ^ 64 /\ field l 8 4 = h_vendor h mod 2 ^ 32 /\
  field l 12 4 = h_description h mod 2 ^ 32 /\ field l 16 4 = h_license h mod 2 ^ 32 /\
  field l 20 4 = h_as_offset h mod 2 ^ 32 /\ field l 24 4 = h_as_length h mod 2 ^ 32 /\
  field l 28 4 = h_data_offset h mod 2 ^ 32 /\ field l 32 4 = h_data_length h mod 2 ^ 32 /\
  field l 36 4 = h_tree_offset h mod 2 ^ 32 /\ field l 40 4 = h_tree_length h mod 2 ^ 32 /\
  field l 44 4 = h_countries_offset h mod 2 ^ 32 /\ field l 48 4 = h_countries_length h mod 2 ^ 32 /\
  field l 52 4 = h_pool_offset h mod 2 ^ 32 /\ field l 56 4 = h_pool_length h mod 2 ^ 32 /\
  field l 60 2 = h_sig1_length h mod 2 ^ 16 /\ field l 62 2 = h_sig2_length h mod 2 ^ 16.
Proof.
  cbv zeta. unfold enc_header.
  split; [fields|]. split; [fields|]. split; [fields|]. split; [fields|]. split; [fields|]. split; [fields|].
  split; [fields|]. split; [fields|]. split; [fields|]. split; [fields|]. split; [fields|]. split; [fields|].
  split; [fields|]. split; [fields|]. split; fields.
Qed.

Lemma enc_header_length h : length (h_sig1 h) = N.to_nat SIG_MAX -> length (h_sig2 h) = N.to_nat SIG_MAX ->
  length (h_padding h) = 32%nat -> N.of_nat (length (enc_header h)) = HEADER_SIZE.
Proof.
  intros H1 H2 H3. unfold enc_header. rewrite !app_length, !to_be_length, H1, H2, H3. unfold SIG_MAX, HEADER_SIZE. lia.
Qed.
