(** loc_database_lookup on a written database *)
From Coq Require Import NArith ZArith List Bool Arith Lia ZifyBool ZifyNat ZifyN.
From Verif Require Import Base LemmasBase ModelAddress LemmasAddress ModelCountryCode ModelNetwork LemmasNetwork ModelNetworkList
  ModelTree LemmasPath LemmasTree LemmasMergeTree LemmasTreeProps LemmasSpecNetwork ModelStringPool ModelObjects
  ModelFile ModelWriter ModelDatabase SpecNetwork SpecStringPool SpecObjects SpecTree SpecWriter
  LemmasFile LemmasWriter LemmasWrite LemmasOpen LemmasDb LemmasDbProps LemmasNodes LemmasLookup.
Import ListNotations.
Open Scope N_scope.
Local Opaque cleanup.

Lemma rep_child nodes nets z i : match z with Nil => i = 0 | _ => 0 < i /\ rep nodes nets z (N.to_nat i) end ->
  i = 0 \/ rep nodes nets z (N.to_nat i).
Proof. destruct z; intros H; [now left|right; apply H]. Qed.

Section Props.
Variables (ctz0 : nat) (held : network -> bool) (key1 key2 : option evp).
Variables (os : list call) (w : writer) (x : save) (w' : writer) (f : list N) (d : db).
Hypothesis Call : Forall call_ok os.
Hypothesis Prog : program ctz0 held key1 key2 os = Ok w.
Hypothesis Write : write_to ctz0 held key1 key2 w x = Ok (0%Z, w', f).
Hypothesis Size : N.of_nat (length f) < 2 ^ 32.
Hypothesis Now : s_now x < 2 ^ 64.
Hypothesis Open : db_open f = Ok d.

Lemma tree_before : tree_ok (w_tree w).
Proof.
  destruct (program_tree _ _ _ _ os w Call Prog) as [rs R].
  exact (wrun_ok ctz0 held _ _ _ _ tree_new_ok (network_ops_ok os Call) R).
Qed.
Lemma is_cleaned : cleanup ctz0 held (w_tree w) = Ok (w_tree w').
Proof.
  destruct (is_written_d _ _ _ _ _ _ _ _ _ _ Call Prog Write Size Now Open) as (ss & ss' & e & offs & nets & rest & Q).
  exact (k_tree _ _ _ _ _ _ _ _ _ _ (q_did _ _ _ _ _ _ _ _ _ _ _ _ _ _ Q)).
Qed.
Lemma tree_after : tree_ok (w_tree w') /\ clean (w_tree w').
Proof. destruct (cleanup_facts _ _ _ _ tree_before is_cleaned) as (T & C & _). auto. Qed.

(** The records of the file represent the tree. *)
Lemma represented : exists nodes nets,
  rep nodes nets (w_tree w') 0 /\
  flat_map kids nodes = map N.of_nat (seq 1 (length nodes - 1)) /\
  (0 < length nodes)%nat /\ N.of_nat (length nodes) * 12 < 2 ^ 32 /\
  (forall i r, nth_error nodes i = Some r -> fetch_node d (N.of_nat i) = Ok (Some r)) /\
  snd (d_tree d) = N.of_nat (length nodes) /\
  (forall k n, nth_error nets k = Some n -> N.of_nat k <> NO_NETWORK /\
    exists r, rec_of n r /\ forall na lv, fetch_network d na lv (N.of_nat k) = Ok (network_from_database na lv r)).
Proof.
  destruct (is_written_d _ _ _ _ _ _ _ _ _ _ Call Prog Write Size Now Open) as (ss & ss' & e & offs & nets & rest & Q).
  pose proof (q_did _ _ _ _ _ _ _ _ _ _ _ _ _ _ Q) as D. pose proof (q_after _ _ _ _ _ _ _ _ _ _ _ _ _ _ Q) as I'.
  pose proof (q_len _ _ _ _ _ _ _ _ _ _ _ _ _ _ Q) as QL. rewrite (q_file _ _ _ _ _ _ _ _ _ _ _ _ _ _ Q) in QL.
  pose proof (k_nodes _ _ _ _ _ _ _ _ _ _ D) as B.
  assert (R : rep (e_nodes e) nets (w_tree w') 0).
  { apply (write_nodes_rep _ _ _ _ _ _ [] [] B) with (j := 0%nat); auto. }
  pose proof (write_nodes_kids _ _ _ _ _ _ B) as [K1 K2]. cbn [length] in K1, K2.
  assert (LN : forall i r, nth_error (e_nodes e) i = Some r -> N.of_nat i < 2 ^ 32).
  { intros i r E. assert (i < length (e_nodes e))%nat by (apply nth_error_Some; congruence).
    pose proof (o3_bound e). pose proof (o4_bound e). pose proof (o5_bound e).
    pose proof (o6_bound e (s_now x) w' rest (i_sig1 _ _ _ I') (i_sig2 _ _ _ I')). clear -H H0 H1 H2 H3 QL. lia. }
  assert (LN2 : N.of_nat (length (e_nodes e)) * 12 < 2 ^ 32 /\ N.of_nat (length (e_nets e)) * 12 < 2 ^ 32).
  { pose proof (o3_bound e). pose proof (o4_bound e). pose proof (o5_bound e).
    pose proof (o6_bound e (s_now x) w' rest (i_sig1 _ _ _ I') (i_sig2 _ _ _ I')). clear -H H0 H1 H2 QL. lia. }
  destruct LN2 as [LN2 LN3].
  assert (Lnets : length (e_nets e) = length nets).
  { rewrite (k_nets _ _ _ _ _ _ _ _ _ _ D). apply net_recs_length. }
  (* fields fit *)
  assert (FIT : forall i r, nth_error (e_nodes e) i = Some r -> fst (fst r) < 2 ^ 32 /\ snd (fst r) < 2 ^ 32 /\ snd r < 2 ^ 32).
  { pose proof (write_nodes_fields _ _ _ _ _ _ B eq_refl eq_refl) as F. intros i r E. apply nth_error_In in E.
    rewrite Forall_forall in F. apply F in E as (E1 & E2 & E3). unfold NO_NETWORK in *. clear -E1 E2 E3 LN2 LN3 Lnets. lia. }
  exists (e_nodes e), nets. split; [exact R|]. split; [exact K2|]. split; [lia|]. split; [exact LN2|]. split; [|split].
  - intros i r E. rewrite (q_d _ _ _ _ _ _ _ _ _ _ _ _ _ _ Q). unfold fetch_node.
    destruct (read_node_rec e (s_now x) w' rest (i_sig1 _ _ _ I') (i_sig2 _ _ _ I') QL i _ E) as [R1 R2].
    change (d_file (opened e (s_now x) w' rest)) with (magic ++ enc_header (file_header e (s_now x) w') ++ out6 e ++ rest).
    rewrite R1, R2. cbn [bind]. destruct (FIT i r E) as (F1 & F2 & F3). destruct r as [[z o] n]. cbn [fst snd] in *.
    rewrite dec_enc_node. rewrite !N.mod_small by assumption. reflexivity.
  - rewrite (q_d _ _ _ _ _ _ _ _ _ _ _ _ _ _ Q). reflexivity.
  - intros k n E. assert (Lk : (k < length nets)%nat) by (apply nth_error_Some; congruence).
    split; [unfold NO_NETWORK; clear -LN3 Lnets Lk; lia|].
    assert (Er : nth_error (e_nets e) k = Some (s_hole x k, n)).
    { rewrite (k_nets _ _ _ _ _ _ _ _ _ _ D). rewrite net_recs_nth, E. reflexivity. }
    destruct (read_net_rec e (s_now x) w' rest (i_sig1 _ _ _ I') (i_sig2 _ _ _ I') QL k _ Er) as [R1 R2].
    exists (enc_net_rec (s_hole x k, n)). split.
    + unfold rec_of, enc_net_rec, enc_network. cbn [fst snd]. destruct (s_hole x k) as [[h1 h2] [h3 h4]].
      split; [reflexivity|]. split; [reflexivity|].
      rewrite (field_skip [_; _; _; _]) by (cbn [length]; lia). cbn [length Nat.sub]. rewrite field_here.
      rewrite (field_skip [_; _; _; _]) by (cbn [length]; lia). cbn [length Nat.sub].
      rewrite field_to_be by lia. cbn [Nat.sub]. rewrite field_here. split; [|reflexivity].
      apply N.mod_small. change (256 ^ N.of_nat 4) with (2 ^ 32).
      assert (In n (stored (w_tree w'))).
      { pose proof (write_nodes_nets _ _ _ _ _ _ B n (nth_error_In _ _ E)) as X. cbn [flat_map] in X. now rewrite app_nil_r in X. }
      apply (w_asn n), (stored_wf (w_tree w')); auto. apply tree_after.
    + intros na lv. rewrite (q_d _ _ _ _ _ _ _ _ _ _ _ _ _ _ Q). unfold fetch_network.
      change (snd (d_data (opened e (s_now x) w' rest))) with (N.of_nat (length (e_nets e))).
      replace (N.of_nat (length (e_nets e)) <=? N.of_nat k) with false by (clear -Lk Lnets; lia).
      change (d_file (opened e (s_now x) w' rest)) with (magic ++ enc_header (file_header e (s_now x) w') ++ out6 e ++ rest).
      rewrite R1, R2. reflexivity.
Qed.

Lemma wf_zero : wf (repeat 0 16).
Proof. split; [reflexivity|]. repeat constructor. Qed.

Lemma bottom_iff a : wf a ->
  sub (w_tree w') (msb 128 (val a)) <> Nil <->
  exists y, In y (stored (w_tree w')) /\ n_prefix y = 128%nat /\ num (n_first y) = num a.
Proof.
  intros W. destruct tree_after as [T C]. pose proof (val_bound a W) as V. split.
  - intros H. assert (E : exists b p, msb 128 (val a) = b :: p).
    { destruct (msb 128 (val a)) as [|b p] eqn:E; eauto. apply (f_equal (@length bool)) in E. rewrite msb_length in E. discriminate. }
    destruct E as (b & p & E). rewrite E in H. destruct (clean_some _ b p C H) as (r & y & N). rewrite <- E in N.
    destruct (wf_nt [] _ _ y (proj1 T) N) as [Wy Py]. cbn [app] in Py.
    assert (L : n_prefix y = 128%nat).
    { pose proof (w_prefix y Wy). rewrite <- (path_length y), Py, app_length, msb_length in *. lia. }
    assert (r = []) as ->.
    { destruct r; auto. exfalso. pose proof (path_length y) as X. rewrite Py, app_length, msb_length, L in X. cbn [length] in X. lia. }
    exists y. split; [apply stored_nt; eauto|]. split; auto. rewrite app_nil_r in Py.
    rewrite path_firstn_lo, L in Py by auto. rewrite firstn_all2 in Py by (rewrite msb_length; lia).
    apply msb_inj in Py; [exact Py|now apply lo_bound|auto].
  - intros (y & I & L & F). apply stored_path in I; auto. destruct (wf_nt [] _ _ y (proj1 T) I) as [Wy _].
    rewrite path_firstn_lo, L in I by auto. rewrite firstn_all2 in I by (rewrite msb_length; lia).
    change (lo y = val a) in F. rewrite F in I. intros E. unfold nt in I. rewrite E in I. discriminate.
Qed.

Lemma mapped_ipv4 v : mappedb v = true <-> is_ipv4 v.
Proof. rewrite mappedb_range. unfold is_ipv4. lia. Qed.

Lemma lookup_exact beyond fuel a : is_addr a -> (129 <= fuel)%nat ->
  (beyond 128%nat = None -> forall y, In y (stored (w_tree w')) -> n_prefix y = 128%nat -> num (n_first y) <> num a) ->
  exists n, lookup beyond d a fuel = Ok (n, 0%Z) /\
  match n with
  | Some y => exists z, reached (stored (w_tree w')) (num a) z /\ y = as_read z /\ ~ (is_ipv4 (num a) /\ n_prefix z = 95%nat)
  | None => forall z, reached (stored (w_tree w')) (num a) z -> is_ipv4 (num a) /\ n_prefix z = 95%nat
  end.
Proof.
  intros A Hf Hb. change (wf a) in A. change (num a) with (val a) in *. pose proof (val_bound a A) as V. destruct tree_after as [T C].
  destruct represented as (nodes & nets & R & _ & _ & _ & H1 & H2 & H3).
  destruct (lookup_rep d nodes nets H1 H2 H3 a A beyond fuel (w_tree w') [] 0 (repeat 0 16)) as (na & E); auto.
  - apply T.
  - now exists (msb 128 (val a)).
  - apply wf_zero.
  - cbn [length]. unfold first_of, blk. rewrite N.div_small by exact V. reflexivity.
  - cbn [length]. lia.
  - intros B. specialize (Hb B). cbn [length skipn].
    destruct (sub (w_tree w') (msb 128 (val a))) eqn:Q; auto. exfalso.
    destruct (proj1 (bottom_iff a A)) as (y & I & L & F); [rewrite Q; discriminate|]. exact (Hb y I L F).
  - cbn [length skipn N.of_nat] in E. unfold lookup. rewrite E. cbn [bind]. eexists. split; [reflexivity|].
    destruct (last_at (w_tree w') (msb 128 (val a))) as [z|] eqn:Q; cbn [found].
    + pose proof Q as Q'. apply last_at_reached in Q; auto. destruct (zero_net (val a) z) eqn:Z.
      * intros z' Rz. apply last_at_reached in Rz; auto. rewrite Q' in Rz. injection Rz as <-.
        apply andb_true_iff in Z as [Z1 Z2]. split; [now apply mapped_ipv4|now apply Nat.eqb_eq].
      * exists z. split; auto. split; auto. intros [I4 P]. apply mapped_ipv4 in I4. unfold zero_net in Z. unfold num in I4.
        change (be a) with (val a) in I4. rewrite I4, P in Z. discriminate.
    + intros z Rz. apply last_at_reached in Rz; auto. change (num a) with (val a) in Rz. congruence.
Qed.

Lemma lookup_host beyond fuel a y : is_addr a -> (129 <= fuel)%nat -> beyond 128%nat = None ->
  In y (stored (w_tree w')) -> n_prefix y = 128%nat -> num (n_first y) = num a -> lookup beyond d a fuel = UB.
Proof.
  intros A Hf Hb I L F. change (wf a) in A. destruct tree_after as [T C].
  destruct represented as (nodes & nets & R & _ & _ & _ & H1 & H2 & H3).
  pose proof (lookup_bottom d nodes nets H1 H2 H3 a A beyond fuel (w_tree w') [] 0 (repeat 0 16)) as E.
  unfold lookup. cbn [length skipn N.of_nat] in E. rewrite E; auto.
  - apply T.
  - now exists (msb 128 (val a)).
  - lia.
  - apply bottom_iff; eauto.
Qed.

(** in terms of the networks before the clean-up *)
Lemma stored_before_wf y : In y (stored (w_tree w)) -> net_wf y.
Proof. apply stored_wf, tree_before. Qed.
Lemma stored_after_wf y : In y (stored (w_tree w')) -> net_wf y.
Proof. apply stored_wf, tree_after. Qed.

Lemma same_attributes v a : v < 2 ^ 128 ->
  (exists z, most_specific (stored (w_tree w)) v z /\ attributes z = a) <->
  (exists z, most_specific (stored (w_tree w')) v z /\ attributes z = a).
Proof.
  intros V. destruct (program_tree _ _ _ _ os w Call Prog) as [rs R].
  exact (cleanup_attributes ctz0 held _ _ _ _ (network_ops_ok os Call) R is_cleaned v a V).
Qed.

Lemma most_exists Ns v : (exists y, In y Ns /\ member y v) -> exists z, most_specific Ns v z.
Proof.
  intros (y0 & I0 & M0). revert y0 I0 M0.
  assert (G : forall k y, In y Ns -> member y v -> (k = fold_right Nat.max 0 (map n_prefix Ns) - n_prefix y)%nat -> exists z, most_specific Ns v z).
  { induction k as [k IH] using lt_wf_ind. intros y I M Ek.
    destruct (existsb (fun y' => (n_prefix y <? n_prefix y')%nat && (num (n_first y') <=? v) && (v <=? num (n_last y'))) Ns) eqn:E.
    - apply existsb_exists in E as (y' & I' & E). apply andb_true_iff in E as [E E3]. apply andb_true_iff in E as [E1 E2].
      assert (B : (n_prefix y' <= fold_right Nat.max 0 (map n_prefix Ns))%nat).
      { clear -I'. induction Ns as [|a l IHl]; [destruct I'|]. cbn [map fold_right]. destruct I' as [->|I']; [lia|]. specialize (IHl I'). lia. }
      apply (IH (fold_right Nat.max 0 (map n_prefix Ns) - n_prefix y')%nat) with (y := y'); auto; [lia|]. split; lia.
    - exists y. split; auto. split; auto. intros y' I' M'. destruct (Nat.le_gt_cases (n_prefix y') (n_prefix y)) as [|G]; auto. exfalso.
      assert (X : existsb (fun y' => (n_prefix y <? n_prefix y')%nat && (num (n_first y') <=? v) && (v <=? num (n_last y'))) Ns = true).
      { apply existsb_exists. exists y'. split; auto. destruct M'. rewrite !andb_true_iff. lia. }
      congruence. }
  intros y I M. eapply G; eauto.
Qed.

Lemma lookup_sound beyond fuel a y r : is_addr a -> (129 <= fuel)%nat -> lookup beyond d a fuel = Ok (Some y, r) ->
  r = 0%Z /\ member y (num a) /\
  exists z, most_specific (stored (w_tree w)) (num a) z /\
    get_country_code y = get_country_code z /\ n_asn y = n_asn z /\ n_flags y = n_flags z mod 2 ^ 16.
Proof.
  intros A Hf E. pose proof (val_bound a A) as V.
  destruct (lookup_exact beyond fuel a A Hf) as (n & E' & P).
  { intros B z I L F. rewrite (lookup_host beyond fuel a z A Hf B I L F) in E. discriminate. }
  rewrite E in E'. injection E' as <- ->. destruct P as (z & Rz & -> & _). split; auto.
  pose proof (reached_most_specific _ _ z V stored_after_wf Rz) as M.
  split; [apply M|]. destruct (proj2 (same_attributes (num a) (attributes z) V)) as (z' & M' & At); [eauto|].
  exists z'. split; auto. unfold attributes in At. injection At as A1 A2 A3.
  unfold get_country_code, as_read. cbn [n_cc n_asn n_flags]. rewrite A1, A2, A3. split; [|auto].
  destruct (n_cc z) as [c1 c2]. cbn [fst]. unfold cc_str. destruct (N.eqb_spec c1 0) as [->|Nz]; [reflexivity|]; replace (c1 =? 0) with false by (clear -Nz; lia); reflexivity.
Qed.

Lemma none_before_after v : v < 2 ^ 128 ->
  (forall y, In y (stored (w_tree w)) -> ~ member y v) -> forall y, In y (stored (w_tree w')) -> ~ member y v.
Proof.
  intros V N y I M. destruct (most_exists (stored (w_tree w')) v) as [z Z]; [eauto|].
  destruct (proj2 (same_attributes v (attributes z) V)) as (z' & (I' & M' & _) & _); [eauto|]. exact (N z' I' M').
Qed.

Lemma lookup_nothing beyond fuel a : is_addr a -> (129 <= fuel)%nat ->
  (forall y, In y (stored (w_tree w)) -> ~ member y (num a)) -> lookup beyond d a fuel = Ok (None, 0%Z).
Proof.
  intros A Hf N. pose proof (val_bound a A) as V. pose proof (none_before_after _ V N) as N'.
  destruct (lookup_exact beyond fuel a A Hf) as (n & E & P).
  { intros _ y I L F. apply (N' y I). pose proof (stored_after_wf y I) as Wy. pose proof (inb_lo y Wy) as M.
    change (member y (num a)). rewrite <- F. exact M. }
  rewrite E. destruct n as [y|]; auto. destruct P as (z & (I & M & _) & _). destruct (N' z I M).
Qed.

Lemma flat_iff t : tree_ok t -> flat t <-> forall y z, In y (stored t) -> In z (stored t) -> ~ encloses y z.
Proof.
  intros T. split.
  - intros Fl y z Iy Iz En. pose proof (stored_wf t y T Iy) as Wy. pose proof (stored_wf t z T Iz) as Wz.
    apply encloses_path in En as [P D]; auto. apply D. apply stored_path in Iy, Iz; auto. eapply Fl; eauto.
  - intros H p r y z Ny Nz P.
    destruct (wf_nt [] t p y (proj1 T) Ny) as [Wy Py]. destruct (wf_nt [] t r z (proj1 T) Nz) as [Wz Pz]. cbn [app] in *. subst.
    destruct (list_eq_dec Bool.bool_dec (path y) (path z)); auto. exfalso.
    apply (H y z); [apply stored_nt; eauto|apply stored_nt; eauto|]. now apply encloses_path.
Qed.

Lemma most_unique t v y z : tree_ok t -> v < 2 ^ 128 -> most_specific (stored t) v y -> most_specific (stored t) v z -> y = z.
Proof.
  clear. intros T V (I1 & M1 & U1) (I2 & M2 & U2). pose proof (stored_wf t y T I1) as W1. pose proof (stored_wf t z T I2) as W2.
  assert (L : n_prefix y = n_prefix z) by (pose proof (U1 z I2 M2); pose proof (U2 y I1 M1); lia).
  apply inb_path in M1, M2; auto. apply stored_path in I1, I2; auto.
  rewrite pre_firstn, path_length in M1, M2. rewrite L in M1. rewrite M1 in M2. rewrite M2 in I1. congruence.
Qed.

Lemma lookup_complete beyond fuel a z : is_addr a -> (129 <= fuel)%nat ->
  (forall y z, In y (stored (w_tree w)) -> In z (stored (w_tree w)) -> ~ encloses y z) ->
  In z (stored (w_tree w)) -> member z (num a) ->
  (is_ipv4 (num a) -> n_family z = AF_INET) ->
  lookup beyond d a fuel = UB \/
  exists y, lookup beyond d a fuel = Ok (Some y, 0%Z) /\ member y (num a) /\
    get_country_code y = get_country_code z /\ n_asn y = n_asn z /\ n_flags y = n_flags z mod 2 ^ 16.
Proof.
  intros A Hf D I M F4. pose proof (val_bound a A) as V.
  destruct (cleanup_facts _ _ _ _ tree_before is_cleaned) as (T' & C' & Sm & _ & _ & V6 & Fl).
  specialize (Fl (proj2 (flat_iff _ tree_before) D)).
  pose proof (proj1 (flat_iff _ T') Fl) as D'.
  assert (Most : most_specific (stored (w_tree w)) (num a) z).
  { split; auto. split; auto. intros y Iy My. destruct (Nat.le_gt_cases (n_prefix y) (n_prefix z)) as [|G]; auto. exfalso.
    pose proof (stored_before_wf y Iy) as Wy. pose proof (stored_before_wf z I) as Wz.
    apply (D z y I Iy). split; auto. intros u Mu. exact (nest z y (num a) Wz Wy M My ltac:(lia) u Mu). }
  destruct (proj1 (same_attributes (num a) (attributes z) V)) as (z' & M' & At); [eauto|].
  pose proof (most_specific_reached _ _ z' V stored_after_wf M' (fun y Iy => D' z' y (proj1 M') Iy)) as Rz.
  destruct (beyond 128%nat) as [b|] eqn:Bq.
  2: destruct (existsb (fun y => (n_prefix y =? 128)%nat && (num (n_first y) =? num a)) (stored (w_tree w'))) eqn:Ex.
  2:{ left. apply existsb_exists in Ex as (y & Iy & Ey). apply andb_true_iff in Ey as [E1 E2].
      apply (lookup_host beyond fuel a y); auto; lia. }
  all: right.
  all: destruct (lookup_exact beyond fuel a A Hf) as (n & E & P).
  1: congruence.
  2:{ intros _ y Iy E1 E2. assert (X : existsb (fun y => (n_prefix y =? 128)%nat && (num (n_first y) =? num a)) (stored (w_tree w')) = true).
      { apply existsb_exists. exists y. split; auto. rewrite andb_true_iff. lia. } congruence. }
  all: destruct n as [y|].
  1,3: exists y; split; [exact E|]; destruct (lookup_sound beyond fuel a y 0%Z A Hf E) as (_ & My & z2 & Mz2 & G1 & G2 & G3);
    split; [exact My|]; rewrite (most_unique _ _ z z2 tree_before V Most Mz2); auto.
  all: exfalso; destruct (P z' Rz) as [I4 P95].
  all: pose proof (stored_after_wf z' (proj1 M')) as Wz'.
  all: assert (F6 : n_family z' = AF_INET6) by
    (destruct (n_family z') eqn:F; auto; pose proof (w_prefix4 z' Wz') as P4; rewrite (w_family z' Wz') in F;
     destruct (mappedb (lo z')); [specialize (P4 eq_refl); lia|discriminate]).
  all: assert (Pz : pre (path z') (msb 128 (val a))) by (apply inb_path; auto; apply M').
  all: assert (Nz : nt (w_tree w') (path z') = Some z') by (apply stored_path; auto; apply M').
  all: destruct (V6 (msb 128 (val a)) (path z') z' (msb_length _ _) Pz Nz F6) as (r & y & P1 & P2 & P3).
  all: destruct (wf_nt [] _ _ y (proj1 tree_before) P2) as [Wy Py]; cbn [app] in Py; subst r.
  all: assert (Iy : In y (stored (w_tree w))) by (apply stored_nt; eauto).
  all: assert (My : member y (num a)) by (apply inb_path in P1; auto).
  all: assert (Q : y = z) by
   (apply (most_unique (w_tree w) (num a)); auto using tree_before; split; auto; split; auto; intros u Iu Mu;
    destruct (Nat.le_gt_cases (n_prefix u) (n_prefix y)) as [|G]; auto; exfalso;
    pose proof (stored_before_wf u Iu) as Wu; apply (D y u Iy Iu); split; auto;
    intros e0 Me; exact (nest y u (num a) Wy Wu My Mu ltac:(lia) e0 Me)).
  all: rewrite Q in P3; rewrite (F4 I4) in P3; discriminate.
Qed.

Lemma lookup_written beyond fuel a : is_addr a -> (129 <= fuel)%nat ->
  (exists n, lookup beyond d a fuel = Ok (n, 0%Z)) \/
  (lookup beyond d a fuel = UB /\ beyond 128%nat = None /\
   exists y, In y (stored (w_tree w')) /\ n_prefix y = 128%nat /\ num (n_first y) = num a).
Proof.
  intros A Hf. destruct (beyond 128%nat) as [b|] eqn:Bq.
  - left. destruct (lookup_exact beyond fuel a A Hf) as (n & E & _); [rewrite Bq; discriminate|]. exists n. exact E.
  - destruct (existsb (fun y => (n_prefix y =? 128)%nat && (num (n_first y) =? num a)) (stored (w_tree w'))) eqn:Ex.
    + right. apply existsb_exists in Ex as (y & Iy & Ey). apply andb_true_iff in Ey as [E1 E2].
      apply Nat.eqb_eq in E1. apply N.eqb_eq in E2. split; [exact (lookup_host beyond fuel a y A Hf Bq Iy E1 E2)|].
      split; [reflexivity|]. exists y. split; [exact Iy|]. split; [exact E1|exact E2].
    + left. destruct (lookup_exact beyond fuel a A Hf) as (n & E & _); [|exists n; exact E].
      intros _ y Iy E1 E2.
      assert (X : existsb (fun y => (n_prefix y =? 128)%nat && (num (n_first y) =? num a)) (stored (w_tree w')) = true).
      { apply existsb_exists. exists y. split; [exact Iy|]. rewrite andb_true_iff. split; [now apply Nat.eqb_eq|now apply N.eqb_eq]. }
      rewrite Ex in X. discriminate.
Qed.
End Props.
