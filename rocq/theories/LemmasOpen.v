(** Opening a written file and reading its records. *)
From Coq Require Import NArith ZArith List Bool Arith Lia ZifyBool ZifyNat ZifyN Permutation.
From Verif Require Import Base ModelAddress ModelCountryCode ModelNetwork ModelTree ModelStringPool ModelObjects
  ModelFile ModelWriter ModelDatabase SpecNetwork SpecStringPool SpecObjects SpecTree SpecWriter
  LemmasBase LemmasStringPool LemmasObjects LemmasFile LemmasWriter LemmasWrite.
Import ListNotations.
Open Scope N_scope.

Lemma sig_field_length s : sig_ok s -> N.of_nat (length (sig_field s)) = SIG_MAX.
Proof.
  intros [A B]. unfold sig_field. rewrite app_length, repeat_length, firstn_length. lia.
Qed.

Lemma magic_length : N.of_nat (length magic) = MAGIC_SIZE.
Proof. reflexivity. Qed.

Section Open.
Variable e : sections.
Variable now : N.
Variable w' : writer.
Variable rest : list N.
Hypothesis S1 : sig_ok (w_sig1 w').
Hypothesis S2 : sig_ok (w_sig2 w').
Let h := file_header e now w'.
Let f := magic ++ enc_header h ++ out6 e ++ rest.

Lemma header_length : N.of_nat (length (enc_header h)) = HEADER_SIZE.
Proof using S1 S2.
  apply enc_header_length; unfold h, file_header, sign_header; cbn [h_sig1 h_sig2 h_padding header_of].
  - pose proof (sig_field_length _ S1). lia.
  - pose proof (sig_field_length _ S2). lia.
  - reflexivity.
Qed.

(** Where the sections are *)
Definition front (o : list N) : list N := magic ++ enc_header h ++ o.
Lemma front_length o : N.of_nat (length (front o)) = offset o.
Proof using S1 S2.
  unfold front. rewrite !app_length. pose proof header_length. pose proof magic_length. unfold offset. lia.
Qed.

Lemma split_ases : exists b, f = front (out1 e) ++ flat_map enc_as_rec (e_ases e) ++ b.
Proof. unfold f, out6, out5, out4, out3, out2, front. rewrite !align_padding. eexists. rewrite <- !app_assoc. reflexivity. Qed.
Lemma split_nodes : exists b, f = front (out2 e) ++ flat_map enc_node (e_nodes e) ++ b.
Proof. unfold f, out6, out5, out4, out3, front. rewrite !align_padding. eexists. rewrite <- !app_assoc. reflexivity. Qed.
Lemma split_nets : exists b, f = front (out3 e) ++ flat_map enc_net_rec (e_nets e) ++ b.
Proof. unfold f, out6, out5, out4, front. rewrite !align_padding. eexists. rewrite <- !app_assoc. reflexivity. Qed.
Lemma split_countries : exists b, f = front (out4 e) ++ flat_map enc_country_rec (e_countries e) ++ b.
Proof. unfold f, out6, out5, front. rewrite !align_padding. eexists. rewrite <- !app_assoc. reflexivity. Qed.
Lemma split_pool : f = front (out5 e) ++ e_pool e ++ rest.
Proof. unfold f, out6, front. now rewrite <- !app_assoc. Qed.

Lemma o1_bound : MAGIC_SIZE + HEADER_SIZE <= offset (out1 e).
Proof using. pose proof (align_bound []). unfold out1. change (offset []) with (MAGIC_SIZE + HEADER_SIZE) in *. lia. Qed.
Lemma o2_bound : offset (out1 e) + 8 * N.of_nat (length (e_ases e)) <= offset (out2 e).
Proof using.
  pose proof (align_bound (out1 e ++ flat_map enc_as_rec (e_ases e))) as [H _]. fold (out2 e) in H.
  rewrite offset_app, (flat_size _ 8 enc_as_rec_length) in H. lia.
Qed.
Lemma o3_bound : offset (out2 e) + 12 * N.of_nat (length (e_nodes e)) <= offset (out3 e).
Proof using.
  pose proof (align_bound (out2 e ++ flat_map enc_node (e_nodes e))) as [H _]. fold (out3 e) in H.
  rewrite offset_app, (flat_size _ 12 enc_node_length) in H. lia.
Qed.
Lemma o4_bound : offset (out3 e) + 12 * N.of_nat (length (e_nets e)) <= offset (out4 e).
Proof using.
  pose proof (align_bound (out3 e ++ flat_map enc_net_rec (e_nets e))) as [H _]. fold (out4 e) in H.
  rewrite offset_app, (flat_size _ 12 enc_net_rec_length) in H. lia.
Qed.
Lemma o5_bound : offset (out4 e) + 8 * N.of_nat (length (e_countries e)) <= offset (out5 e).
Proof using.
  pose proof (align_bound (out4 e ++ flat_map enc_country_rec (e_countries e))) as [H _]. fold (out5 e) in H.
  rewrite offset_app, (flat_size _ 8 enc_country_rec_length) in H. lia.
Qed.
Lemma o6_bound : offset (out5 e) + N.of_nat (length (e_pool e)) <= flen f.
Proof using S1 S2. unfold flen. rewrite split_pool, !app_length, <- front_length. lia. Qed.

Hypothesis Hlen : flen f < 2 ^ 32.
Hypothesis Hnow : now < 2 ^ 64.
Hypothesis Hv : N.of_nat (w_vendor w') < 2 ^ 32.
Hypothesis Hd : N.of_nat (w_description w') < 2 ^ 32.
Hypothesis Hl : N.of_nat (w_license w') < 2 ^ 32.

Definition opened : db :=
  mkDb f now (N.of_nat (w_vendor w')) (N.of_nat (w_description w')) (N.of_nat (w_license w'))
    (MAGIC_SIZE + 64, snd (w_sig1 w')) (MAGIC_SIZE + 64 + SIG_MAX, snd (w_sig2 w'))
    (offset (out5 e), N.of_nat (length (e_pool e)))
    (offset (out1 e), N.of_nat (length (e_ases e))) (offset (out2 e), N.of_nat (length (e_nodes e)))
    (offset (out3 e), N.of_nat (length (e_nets e))) (offset (out4 e), N.of_nat (length (e_countries e))).

Lemma check_magic_written : check_magic f = Ok VERSION_1.
Proof.
  unfold check_magic. replace (flen f <? MAGIC_SIZE) with false.
  - reflexivity.
  - unfold flen, f. rewrite app_length. pose proof magic_length. lia.
Qed.

Lemma open_written : db_open f = Ok opened.
Proof.
  pose proof o1_bound. pose proof o2_bound. pose proof o3_bound. pose proof o4_bound. pose proof o5_bound. pose proof o6_bound.
  unfold db_open. rewrite check_magic_written. cbn [bind]. rewrite N.eqb_refl. unfold read_header_v1.
  assert (B : flen f < 2 ^ 64) by lia.
  replace (check_boundaries f MAGIC_SIZE HEADER_SIZE) with true.
  2:{ symmetry. apply check_small; auto; lia. }
  cbn [negb]. rewrite (rd_at f magic (enc_header h) (out6 e ++ rest)); [|reflexivity|symmetry; apply magic_length|symmetry; apply header_length].
  cbn [bind]. destruct (header_fields h) as (F1 & F2 & F3 & F4 & F5 & F6 & F7 & F8 & F9 & F10 & F11 & F12 & F13 & F14 & F15 & F16).
  rewrite F1, F2, F3, F4, F5, F6, F7, F8, F9, F10, F11, F12, F13, F14, F15, F16.
  clear F1 F2 F3 F4 F5 F6 F7 F8 F9 F10 F11 F12 F13 F14 F15 F16.
  unfold h, file_header, sign_header, header_of.
  cbn [h_created_at h_vendor h_description h_license h_as_offset h_as_length h_data_offset h_data_length h_tree_offset h_tree_length
       h_countries_offset h_countries_length h_pool_offset h_pool_length h_sig1_length h_sig2_length].
  fold h f.
  destruct S1 as [_ L1], S2 as [_ L2]. unfold SIG_MAX in L1, L2.
  rewrite (N.mod_small now) by lia.
  rewrite (N.mod_small (snd (w_sig1 w'))) by lia. rewrite (N.mod_small (snd (w_sig2 w'))) by lia.
  rewrite !(N.mod_small _ (2 ^ 32)) by lia.
  unfold read_signature. replace (SIG_MAX <? snd (w_sig1 w')) with false by (unfold SIG_MAX; lia).
  replace (SIG_MAX <? snd (w_sig2 w')) with false by (unfold SIG_MAX; lia). cbn [bind].
  replace (check_boundaries f (offset (out5 e)) (N.of_nat (length (e_pool e)))) with true.
  2:{ symmetry. apply check_small; auto. lia. }
  cbn [negb]. unfold map_objects, AS_SIZE, NODE_SIZE, NETWORK_SIZE, COUNTRY_SIZE.
  rewrite !(N.mul_comm 8), !(N.mul_comm 12), !N.div_mul by lia. reflexivity.
Qed.

(** Records *)
Lemma read_as_rec i r : nth_error (e_ases e) i = Some r ->
  object f (d_as opened) AS_SIZE (N.of_nat i) = Some (offset (out1 e) + N.of_nat i * 8) /\
  rd f (offset (out1 e) + N.of_nat i * 8) AS_SIZE = Ok (enc_as_rec r).
Proof using S1 S2 Hlen.
  clear Hnow Hv Hd Hl.
  intros E. destruct split_ases as [b B]. split.
  - apply (table_object enc_as_rec 8 enc_as_rec_length f _ _ _ _ _ i r B); auto; [now rewrite front_length|lia].
  - apply (rd_table enc_as_rec 8 enc_as_rec_length f _ _ _ _ i r B); auto; now rewrite front_length.
Qed.
Lemma read_node_rec i r : nth_error (e_nodes e) i = Some r ->
  object f (d_tree opened) NODE_SIZE (N.of_nat i) = Some (offset (out2 e) + N.of_nat i * 12) /\
  rd f (offset (out2 e) + N.of_nat i * 12) NODE_SIZE = Ok (enc_node r).
Proof using S1 S2 Hlen.
  clear Hnow Hv Hd Hl.
  intros E. destruct split_nodes as [b B]. split.
  - apply (table_object enc_node 12 enc_node_length f _ _ _ _ _ i r B); auto; [now rewrite front_length|lia].
  - apply (rd_table enc_node 12 enc_node_length f _ _ _ _ i r B); auto; now rewrite front_length.
Qed.
Lemma read_net_rec i r : nth_error (e_nets e) i = Some r ->
  object f (d_data opened) NETWORK_SIZE (N.of_nat i) = Some (offset (out3 e) + N.of_nat i * 12) /\
  rd f (offset (out3 e) + N.of_nat i * 12) NETWORK_SIZE = Ok (enc_net_rec r).
Proof using S1 S2 Hlen.
  clear Hnow Hv Hd Hl.
  intros E. destruct split_nets as [b B]. split.
  - apply (table_object enc_net_rec 12 enc_net_rec_length f _ _ _ _ _ i r B); auto; [now rewrite front_length|lia].
  - apply (rd_table enc_net_rec 12 enc_net_rec_length f _ _ _ _ i r B); auto; now rewrite front_length.
Qed.
Lemma read_country_rec i r : nth_error (e_countries e) i = Some r ->
  object f (d_countries opened) COUNTRY_SIZE (N.of_nat i) = Some (offset (out4 e) + N.of_nat i * 8) /\
  rd f (offset (out4 e) + N.of_nat i * 8) COUNTRY_SIZE = Ok (enc_country_rec r).
Proof using S1 S2 Hlen.
  clear Hnow Hv Hd Hl.
  intros E. destruct split_countries as [b B]. split.
  - apply (table_object enc_country_rec 8 enc_country_rec_length f _ _ _ _ _ i r B); auto; [now rewrite front_length|lia].
  - apply (rd_table enc_country_rec 8 enc_country_rec_length f _ _ _ _ i r B); auto; now rewrite front_length.
Qed.

(** Strings *)
Variable p : pool.
Variable ss : list cstr.
Hypothesis P : pool_ok p ss.
Hypothesis Pe : e_pool e = sp_data p.

Lemma located_bound s off : located ss s off -> (off < length (e_pool e))%nat.
Proof using P Pe.
  clear S1 S2 Hlen Hnow Hv Hd Hl.
  intros (A & B & E & ->). rewrite Pe, (po_data _ _ P), E, flat_app, app_length, flat_length_cons. lia.
Qed.

Lemma string_written s off : located ss s off -> db_string opened (N.of_nat off) = Ok (Some s).
Proof using S1 S2 P Pe.
  clear Hlen Hnow Hv Hd Hl.
  intros L. pose proof (located_bound s off L) as B. pose proof o6_bound.
  unfold db_string. cbn [d_pool d_file opened fst snd].
  replace (N.of_nat (length (e_pool e)) <=? N.of_nat off) with false by lia.
  replace (flen f <? offset (out5 e) + N.of_nat off) with false by lia.
  rewrite split_pool. replace (N.to_nat (offset (out5 e) + N.of_nat off)) with (length (front (out5 e)) + off)%nat.
  2:{ pose proof (front_length (out5 e)). lia. }
  rewrite skipn_app, (skipn_all2 (front (out5 e))) by lia.
  replace (length (front (out5 e)) + off - length (front (out5 e)))%nat with off by lia. cbn [app].
  assert (Is : is_cstr s).
  { destruct L as (A & B' & E & _). pose proof (po_str _ _ P) as Fs. rewrite Forall_forall in Fs. apply Fs. rewrite E.
    apply in_or_app. right. now left. }
  destruct L as (A & B' & E & ->). rewrite Pe, (po_data _ _ P), E, flat_app, <- app_assoc, skipn_len.
  unfold flat at 1. cbn [flat_map]. rewrite <- !app_assoc. cbn [app]. rewrite scan_str by auto. reflexivity.
Qed.
End Open.
