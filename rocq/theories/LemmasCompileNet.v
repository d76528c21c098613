(** Compilation of a database: the networks in the writer *)
From Coq Require Import NArith ZArith List Bool Arith Lia ZifyBool ZifyNat ZifyN Permutation.
From Verif Require Import Base LemmasBase ModelAddress ModelCountryCode ModelStringPool ModelNetwork ModelTree SpecNetwork SpecTree
  LemmasAddress LemmasNetwork LemmasSpecNetwork LemmasNetworkProps SpecWriter SpecEnum
  ModelImport SpecImport LemmasImportRange LemmasImportTable ModelCompile SpecCompile LemmasCompile.
Import ListNotations.
Open Scope N_scope.

(** ** Networks *)
Definition raw (m : pnet) : nat := if p_bits m =? 32 then (N.to_nat (p_len m) + 96)%nat else N.to_nat (p_len m).
Lemma size_bound : forall m, net_wf m -> p_base m + size_of m <= 2 ^ p_bits m.
Proof.
  intros m W. destruct (base_mult m W) as [x X]. destruct W as (_ & L & _ & B).
  assert (E : 2 ^ p_bits m = 2 ^ p_len m * size_of m) by (unfold size_of; rewrite <- N.pow_add_r; f_equal; lia).
  rewrite X, E in *. pose proof (size_pos m) as P. set (s := size_of m) in *. clearbody s. set (k := 2 ^ p_len m) in *. clearbody k.
  apply (N.mul_lt_mono_pos_r s) in B; [|exact P]. replace (x * s + s) with ((x + 1) * s) by lia.
  apply N.mul_le_mono_r. lia.
Qed.
Lemma blk_raw : forall m, net_wf m -> blk (raw m) = size_of m.
Proof.
  intros m ([B|B] & L & _); unfold blk, raw, size_of; rewrite B in *; cbn [N.eqb Pos.eqb]; f_equal; lia.
Qed.
Lemma new_of_pnet : forall m n, net_wf m -> network_new (to_addr m) (p_len m) = Ok n ->
  valid_network n /\ num (n_first n) = mapped (p_bits m) (p_base m) /\ n_prefix n = raw m /\
  num (n_last n) + 1 = mapped (p_bits m) (p_base m) + size_of m /\ n_cc n = (0, 0) /\ n_asn n = 0 /\ n_flags n = 0 /\
  (n_family n = AF_INET <-> p_bits m = 32).
Proof.
  intros m n W H. pose proof (size_bound m W) as SB. pose proof (size_pos m) as SP.
  set (V := mapped (p_bits m) (p_base m)).
  assert (VB : V < 2 ^ 128).
  { unfold V, mapped. destruct W as ([B|B] & _ & _ & X); rewrite B in *; cbn [N.eqb Pos.eqb]; [|exact X].
    apply N.lt_le_trans with (65535 * 2 ^ 32 + 2 ^ 32); [lia|]. vm_compute. discriminate. }
  assert (E : to_addr m = addr_of V) by reflexivity. rewrite E in H.
  pose proof (network_new_spec (addr_of V) (p_len m) (addr_of_wf V)) as S0. rewrite val_addr_of in S0 by exact VB.
  destruct (p_len m <=? low_bits V) eqn:LB; [|congruence].
  destruct S0 as (n' & N1 & N2 & N3 & N4 & N5 & N6 & N7 & N8). assert (n' = n) by congruence. subst n'.
  assert (MB : mappedb V = (p_bits m =? 32)).
  { destruct (p_bits m =? 32) eqn:B.
    - apply N.eqb_eq in B. apply mappedb_range. unfold V, mapped. rewrite B in *. cbn [N.eqb Pos.eqb]. lia.
    - destruct (mappedb V) eqn:MB; [exfalso|reflexivity].
      assert (B8 : p_bits m = 128) by (destruct W as ([X|X] & _); [rewrite X in B; discriminate|exact X]).
      unfold low_bits in LB. rewrite MB in LB. apply mappedb_range in MB. unfold V, mapped in MB. rewrite B in MB.
      destruct (base_mult m W) as [x X].
      assert (Z : size_of m = 2 ^ 64 * 2 ^ (128 - p_len m - 64)) by (unfold size_of; rewrite B8, <- N.pow_add_r; f_equal; lia).
      rewrite X, Z in MB. set (k := 2 ^ (128 - p_len m - 64)) in *. clearbody k. clear - MB.
      assert (x * (2 ^ 64 * k) = 2 ^ 64 * (x * k)) by lia. rewrite H in MB. set (y := x * k) in *. clearbody y. lia. }
  assert (R : raw_prefix V (p_len m) = raw m) by (unfold raw_prefix, raw; rewrite MB; reflexivity).
  rewrite R in *.
  assert (F : LemmasAddress.first_of V (raw m) = V).
  { unfold LemmasAddress.first_of. rewrite (blk_raw m W). destruct (base_mult m W) as [x X]. unfold V, mapped. rewrite X.
    destruct W as ([B|B] & L & _); rewrite B; cbn [N.eqb Pos.eqb].
    - replace (65535 * 2 ^ 32 + x * size_of m) with ((65535 * 2 ^ p_len m + x) * size_of m); [rewrite N.div_mul by lia; reflexivity|].
      replace (2 ^ 32) with (2 ^ p_len m * size_of m); [lia|]. unfold size_of. rewrite B, <- N.pow_add_r. f_equal. rewrite B in L. lia.
    - rewrite N.div_mul by lia. reflexivity. }
  split; [apply valid_net_wf, N2|]. split; [change (num (n_first n)) with (lo n); rewrite N3; exact F|].
  split; [exact N4|]. split.
  - change (num (n_last n)) with (hi n). rewrite (w_hi n N2), N4, N3, F. unfold last_of. unfold LemmasAddress.first_of in F. rewrite F, (blk_raw m W). lia.
  - split; [exact N6|]. split; [exact N7|]. split; [exact N8|]. rewrite (w_family n N2), N5, MB.
    destruct (p_bits m =? 32) eqn:B; [apply N.eqb_eq in B; tauto|apply N.eqb_neq in B; split; [discriminate|tauto]].
Qed.

(** ** What a row makes *)
Lemma cc_valid_shape : forall s, cc_is_valid (Some s) = true -> exists a b, s = [a; b] /\ 65 <= a <= 90 /\ 65 <= b <= 90 /\ a <> 88.
Proof.
  intros s H. destruct s as [|a [|b [|c s]]]; [discriminate| discriminate| |discriminate].
  exists a, b. split; [reflexivity|]. apply cc_valid_iff. exact H.
Qed.
Definition makes (r : nrow) (n : network) (a : cc2 * N * N) : Prop :=
  network_new (to_addr (n_net r)) (p_len (n_net r)) = Ok n /\ attributes_ok a /\
  cc_str (fst (fst a)) = code_of (a_country (n_at r)) /\ snd (fst a) = number_of (n_autnum r) /\ snd a = flags_of (n_at r).
Lemma write_row_makes : forall r l, (forall a, n_autnum r = Some a -> a < 2 ^ 32) -> net_wf (n_net r) -> write_row r = Some l ->
  exists n a, l = [AddNet n; SetNet n a] /\ makes r n a.
Proof.
  intros r l AB W H. unfold write_row in H.
  destruct (network_new (to_addr (n_net r)) (p_len (n_net r))) as [n| | |] eqn:E; try discriminate.
  destruct (new_of_pnet _ _ W E) as (_ & _ & _ & _ & N6 & N7 & N8 & _).
  assert (C : exists c, (if truthy (a_country (n_at r)) then set_country_code n (a_country (n_at r)) else Ok n) = Ok (with_cc n c) /\
    cc_str c = code_of (a_country (n_at r)) /\ ((fst c = 0 /\ snd c < 256) \/ (65 <= fst c <= 90 /\ 65 <= snd c <= 90 /\ fst c <> 88))).
  { destruct (a_country (n_at r)) as [[|x s]|]; cbn [truthy] in *.
    - exists (0, 0). split; [rewrite <- N6; destruct n; reflexivity|]. split; [reflexivity|]. left. split; reflexivity.
    - cbn [set_country_code] in *. destruct (cc_is_valid (Some (x :: s))) eqn:V; cbn [negb] in *; [|discriminate].
      exists (cc_copy (x :: s)). split; [reflexivity|]. destruct (cc_valid_shape _ V) as (a & b & Q & A & B & X). rewrite Q. split.
      + cbn. replace (a =? 0) with false by lia. replace (b =? 0) with false by lia. reflexivity.
      + right. cbn. tauto.
    - exists (0, 0). split; [rewrite <- N6; destruct n; reflexivity|]. split; [reflexivity|]. left. split; reflexivity. }
  destruct C as (c & C1 & C2 & C3). rewrite C1 in H.
  set (x1 := match n_autnum r with Some a => _ | None => _ end) in H.
  assert (X1 : x1 = mkNet (n_family n) (n_first n) (n_last n) (n_prefix n) c (number_of (n_autnum r)) 0).
  { unfold x1, number_of, set_asn, with_asn, with_cc. cbn. destruct (n_autnum r) as [a|]; [destruct (N.eqb_spec a 0) as [->|]|]; cbn; rewrite ?N7, ?N8; reflexivity. }
  rewrite X1 in H. clear X1 x1.
  exists n, (c, number_of (n_autnum r), flags_of (n_at r)). split.
  - assert (F : forall nn, n_cc nn = c -> n_asn nn = number_of (n_autnum r) -> n_flags nn = 0 ->
      (n_cc (raise_flag (a_drop (n_at r)) 8 (raise_flag (a_anycast (n_at r)) 4 (raise_flag (a_satellite (n_at r)) 2 (raise_flag (a_proxy (n_at r)) 1 nn)))),
       n_asn (raise_flag (a_drop (n_at r)) 8 (raise_flag (a_anycast (n_at r)) 4 (raise_flag (a_satellite (n_at r)) 2 (raise_flag (a_proxy (n_at r)) 1 nn)))),
       n_flags (raise_flag (a_drop (n_at r)) 8 (raise_flag (a_anycast (n_at r)) 4 (raise_flag (a_satellite (n_at r)) 2 (raise_flag (a_proxy (n_at r)) 1 nn))))) =
      (c, number_of (n_autnum r), flags_of (n_at r))).
    { intros nn Q1 Q2 Q3. destruct nn as [f1 f2 f3 f4 f5 f6 f7]. cbn in Q1, Q2, Q3. subst. unfold flags_of.
      destruct (a_proxy (n_at r)) as [[]|], (a_satellite (n_at r)) as [[]|], (a_anycast (n_at r)) as [[]|], (a_drop (n_at r)) as [[]|]; reflexivity. }
    rewrite F in H by reflexivity. congruence.
  - split; [exact E|]. split; [|cbn; auto]. split; [exact C3|]. split.
    + unfold number_of. destruct (n_autnum r) as [a|]; [exact (AB a eq_refl)|reflexivity].
    + unfold flags_of. destruct (a_proxy (n_at r)) as [[]|], (a_satellite (n_at r)) as [[]|], (a_anycast (n_at r)) as [[]|], (a_drop (n_at r)) as [[]|]; reflexivity.
Qed.
Lemma compile_row_small : forall t m r, compile_row t m = Some r -> forall a, n_autnum r = Some a -> a < 2 ^ 31.
Proof.
  intros t m r H a A. unfold compile_row in H. destruct (step_autnum t (mkN m None null)) as [r0|] eqn:E; [|discriminate].
  cbn in H. assert (Q : n_autnum r = n_autnum r0).
  { assert (AP : forall x r, n_autnum (apply x r) = n_autnum r) by (intros [] ?; reflexivity).
    apply (f_equal (option_map n_autnum)) in H. cbn in H.
    unfold step_as_overrides, step_overrides, step_as_feeds, step_feeds in H. rewrite !AP in H.
    unfold step_geofeed in H. destruct (best r_net (geofeed_rows t) _); cbn in H; unfold step_country in H; destruct (best r_net (t_networks t) _); cbn in H; congruence. }
  unfold step_autnum in E. cbn [n_net n_at] in E. rewrite Q in A.
  destruct (best fst (t_announcements t) m) as [[? b]|].
  - destruct (2 ^ 31 <=? b) eqn:L; [discriminate|]. assert (r0 = mkN m (Some b) null) by congruence. subst r0. cbn in A.
    assert (a = b) by congruence. lia.
  - assert (r0 = mkN m None null) by congruence. subst r0. discriminate.
Qed.

(** ** What the writer holds *)
Definition pair_calls (x : network * (cc2 * N * N)) : list call := [AddNet (fst x); SetNet (fst x) (snd x)].
Lemma set_run_app : forall os1 os2 s, fst (set_run s (os1 ++ os2)) = fst (set_run (fst (set_run s os1)) os2).
Proof.
  induction os1 as [|o os1 IH]; intros os2 s; [reflexivity|]. cbn.
  destruct (set_step s o) as [s1 r]. specialize (IH os2 s1).
  destruct (set_run s1 (os1 ++ os2)), (set_run s1 os1). cbn in *. exact IH.
Qed.
Lemma same_block_attr : forall n x a, same_block n (with_attributes x a) = same_block n x.
Proof. intros n x [[c s] f]. reflexivity. Qed.
Lemma set_run_pairs : forall l s,
  ForallOrdPairs (fun x y => same_block (fst y) (fst x) = false) l ->
  (forall x y, In x l -> In y s -> same_block (fst x) y = false) ->
  fst (set_run s (flat_map network_ops (flat_map pair_calls l))) = rev (map (fun x => with_attributes (fst x) (snd x)) l) ++ s.
Proof.
  induction l as [|[n a] l IH]; intros s P F; [reflexivity|].
  inversion P as [|? ? P1 P2]; subst. cbn [flat_map pair_calls fst snd app network_ops].
  change (AddNetwork n :: SetAttributes n a :: ?X) with ([AddNetwork n; SetAttributes n a] ++ X). rewrite set_run_app.
  assert (E1 : existsb (same_block n) s = false).
  { destruct (existsb (same_block n) s) eqn:E; [|reflexivity]. apply existsb_exists in E. destruct E as (y & Y & B).
    pose proof (F (n, a) y (or_introl eq_refl) Y) as X. cbn [fst] in X. congruence. }
  assert (E : fst (set_run s [AddNetwork n; SetAttributes n a]) = with_attributes n a :: s).
  { cbn. rewrite E1. cbn. unfold same_block at 1. rewrite N.eqb_refl, Nat.eqb_refl. cbn. f_equal.
    rewrite <- (map_id s) at 2. apply map_ext_in. intros y Y.
    pose proof (F (n, a) y (or_introl eq_refl) Y) as X. cbn [fst] in X. rewrite X. reflexivity. }
  rewrite E, IH; [cbn [map rev fst snd]; rewrite <- app_assoc; reflexivity|exact P2|].
  intros x y X [<-|Y]; [|apply F; [right; exact X|exact Y]].
  rewrite same_block_attr. rewrite Forall_forall in P1. exact (P1 x X).
Qed.
