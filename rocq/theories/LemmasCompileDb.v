(** Compilation of a database: what is in it *)
From Coq Require Import NArith ZArith List Bool Arith Lia ZifyBool ZifyNat ZifyN Permutation Sorted.
From Verif Require Import Base LemmasBase ModelAddress ModelCountryCode ModelStringPool LemmasStringPool ModelNetwork ModelTree
  SpecNetwork SpecStringPool SpecTree LemmasAddress LemmasNetwork LemmasSpecNetwork LemmasNetworkProps SpecEnum LemmasEnumDb SpecWriter
  ModelImport SpecImport LemmasImportRange LemmasImportTable ModelCompile SpecCompile LemmasCompile LemmasCompileNet.
Import ListNotations.
Open Scope N_scope.

(** ** Addresses *)
Lemma rows_known : forall t rows, compile_rows t = Some rows -> forall r, In r rows -> known t (n_net r).
Proof.
  intros t rows H r R. destruct (compile_rows_nets t rows H) as [P _]. apply all_networks_known.
  apply (Permutation_in _ (Permutation_sym P)), in_map, R.
Qed.
Lemma known_row : forall t rows, compile_rows t = Some rows -> forall n, known t n -> exists r, In r rows /\ n_net r = n.
Proof.
  intros t rows H n K. destruct (compile_rows_nets t rows H) as [P _]. apply all_networks_known in K.
  apply (Permutation_in _ P), in_map_iff in K. destruct K as (r & E & R). eauto.
Qed.
Lemma rows_once : forall t rows, compile_rows t = Some rows -> NoDup (map n_net rows).
Proof.
  intros t rows H. destruct (compile_rows_nets t rows H) as [P _].
  apply (Permutation_NoDup P), order_by_map_nodup.
Qed.
Lemma address_expected : forall t rows bits v, tables_wf t -> compile_rows t = Some rows ->
  ((exists r, nearest n_net (fun r => In r rows) bits v r) <-> exists n, known t n /\ p_bits n = bits /\ holds n v) /\
  (forall r, nearest n_net (fun r => In r rows) bits v r -> expected t bits v (n_autnum r) (n_at r)).
Proof.
  intros t rows bits v W H. split; [split|].
  - intros (r & (R1 & R2 & R3) & _). exists (n_net r). split; [exact (rows_known t rows H r R1)|]. auto.
  - intros (n & K & B & Hn). destruct (known_row t rows H n K) as (r0 & R0 & <-).
    assert (M : forall l : list nrow, l <> [] -> exists r, In r l /\ forall q, In q l -> p_len (n_net q) <= p_len (n_net r)).
    { induction l as [|x l IH]; intro Q; [contradiction|]. destruct l as [|y l].
      - exists x. split; [left; reflexivity|]. intros q [->|[]]. lia.
      - destruct IH as (r & A & C); [discriminate|].
        destruct (N.le_gt_cases (p_len (n_net x)) (p_len (n_net r))) as [L|L].
        + exists r. split; [right; exact A|]. intros q [->|I0]; [exact L|exact (C q I0)].
        + exists x. split; [left; reflexivity|]. intros q [->|I0]; [lia|]. pose proof (C q I0). lia. }
    destruct (M (filter (fun r => (p_bits (n_net r) =? bits) && holdsb (n_net r) v) rows)) as (r & A & C).
    + intro E. assert (X : In r0 (filter (fun r => (p_bits (n_net r) =? bits) && holdsb (n_net r) v) rows)).
      { apply filter_In. split; [exact R0|]. rewrite andb_true_iff, N.eqb_eq, holdsb_spec. tauto. }
      rewrite E in X. destruct X.
    + apply filter_In in A. rewrite andb_true_iff, N.eqb_eq, holdsb_spec in A. exists r. split; [split; tauto|].
      intros q (Q1 & Q2 & Q3). apply C. apply filter_In. rewrite andb_true_iff, N.eqb_eq, holdsb_spec. tauto.
  - intros r ((R1 & R2 & R3) & R4). destruct (compile_rows_nets t rows H) as [_ C].
    apply (row_expected t W (n_net r) bits v); auto.
    + exact (rows_known t rows H r R1).
    + intros n K B Hn. destruct (known_row t rows H n K) as (q & Q & <-). apply R4. split; auto.
Qed.

(** ** The calls *)
Lemma written_pairs : forall t l, tables_wf t -> write_networks t = Some l ->
  exists rows ps, compile_rows t = Some rows /\ l = flat_map pair_calls ps /\ Forall2 (fun r p => makes r (fst p) (snd p)) rows ps.
Proof.
  intros t l W H. unfold write_networks in H. destruct (compile_rows t) as [rows|] eqn:E; [|discriminate].
  destruct (collect write_row rows) as [ls|] eqn:C; [|discriminate]. cbn in H. assert (l = concat ls) by congruence. subst l.
  apply collect_some in C. destruct (compile_rows_nets t rows E) as [_ CR].
  assert (G : forall r, In r rows -> net_wf (n_net r) /\ forall a, n_autnum r = Some a -> a < 2 ^ 32).
  { intros r R. split; [apply W, (rows_known t rows E r R)|]. intros a A.
    pose proof (compile_row_small t _ r (CR r R) a A). change (2 ^ 32) with (2 ^ 31 * 2). lia. }
  exists rows. clear - C G.
  enough (X : exists ps, concat ls = flat_map pair_calls ps /\ Forall2 (fun r p => makes r (fst p) (snd p)) rows ps).
  { destruct X as (ps & X1 & X2). exists ps. auto. }
  induction C as [|r l rows ls C F IH]; [exists []; split; [reflexivity|constructor]|].
  destruct IH as (ps & E & M); [intros q Q; apply G; right; exact Q|].
  destruct (G r (or_introl eq_refl)) as [G1 G2]. destruct (write_row_makes r l G2 G1 C) as (n & a & -> & K).
  exists ((n, a) :: ps). split; [cbn; rewrite E; reflexivity|]. constructor; [exact K|exact M].
Qed.
Lemma mapped_inj : forall m1 m2 n1 n2, net_wf m1 -> net_wf m2 -> network_new (to_addr m1) (p_len m1) = Ok n1 ->
  network_new (to_addr m2) (p_len m2) = Ok n2 -> same_block n1 n2 = true -> m1 = m2.
Proof.
  intros m1 m2 n1 n2 W1 W2 E1 E2 B. destruct (new_of_pnet _ _ W1 E1) as (V1 & A1 & B1 & _ & _ & _ & _ & F1).
  destruct (new_of_pnet _ _ W2 E2) as (V2 & A2 & B2 & _ & _ & _ & _ & F2).
  unfold same_block in B. apply andb_true_iff in B. destruct B as [B3 B4]. apply N.eqb_eq in B3. apply Nat.eqb_eq in B4.
  assert (BB : p_bits m1 = p_bits m2).
  { pose proof (vn_family n1 V1) as X1. pose proof (vn_family n2 V2) as X2. rewrite <- B3 in X2.
    destruct W1 as ([K1|K1] & _), W2 as ([K2|K2] & _); rewrite K1, K2 in *; try reflexivity; exfalso.
    - assert (128 = 32) by (apply F2, X2, X1, F1; reflexivity). discriminate.
    - assert (128 = 32) by (apply F1, X1, X2, F2; reflexivity). discriminate. }
  rewrite A1, A2, BB in B3. rewrite B1, B2 in B4. unfold raw in B4. rewrite BB in B4.
  clear - B3 B4 BB. destruct m1 as [b1 s1 l1], m2 as [b2 s2 l2]. cbn [p_bits p_base p_len] in *. subst b2. unfold mapped in B3.
  assert (s1 = s2) by (destruct (b1 =? 32); lia). assert (l1 = l2) by (destruct (b1 =? 32); lia). congruence.
Qed.
Lemma given_app : forall a b, (forall o, In o b -> network_ops o = []) -> given (a ++ b) = given a.
Proof.
  intros a b H. unfold given. rewrite flat_map_app.
  replace (flat_map network_ops b) with (@nil wop); [rewrite app_nil_r; reflexivity|].
  induction b as [|o b IH]; [reflexivity|]. cbn. rewrite (H o (or_introl eq_refl)). cbn. apply IH. intros x X. apply H. right. exact X.
Qed.
Lemma given_skip : forall a b, (forall o, In o a -> network_ops o = []) -> given (a ++ b) = given b.
Proof.
  intros a b H. unfold given. rewrite flat_map_app.
  replace (flat_map network_ops a) with (@nil wop); [reflexivity|].
  induction a as [|o a IH]; [reflexivity|]. cbn. rewrite (H o (or_introl eq_refl)). cbn. apply IH. intros x X. apply H. right. exact X.
Qed.
Lemma ases_ops : forall rows id id' l, write_ases id rows = Some (id', l) -> forall o, In o l -> network_ops o = [] /\ no_save o.
Proof.
  induction rows as [|[n s] rows IH]; cbn [write_ases]; intros id id' l H o O; [assert (l = []) by congruence; subst; destruct O|].
  destruct s as [|c s]; [exact (IH _ _ _ H o O)|]. destruct (2 ^ 31 <=? n); [discriminate|].
  destruct (write_ases (S id) rows) as [[i q]|] eqn:E; [|discriminate].
  assert (l = AddAs n :: NameAs id (Some (c :: s)) :: q) by congruence. subst l.
  destruct O as [<-|[<-|O]]; [split; [reflexivity|exact Logic.I]..|exact (IH _ _ _ E o O)].
Qed.
Lemma countries_ops : forall rows id l, write_countries id rows = Some l -> forall o, In o l -> network_ops o = [] /\ no_save o.
Proof.
  induction rows as [|[n [c s]] rows IH]; intros id l H o O; [cbn in H; assert (l = []) by congruence; subst; destruct O|].
  cbn [write_countries] in H.
  destruct (cc_is_valid (Some n)); cbn [negb] in H; [|discriminate]. destruct (length c =? 2)%nat; cbn [negb] in H; [|discriminate].
  destruct (write_countries (S id) rows) as [q|] eqn:E; [|discriminate].
  assert (l = AddCountry (Some n) :: SetContinent id (Some c) :: NameCountry id (Some s) :: q) by congruence. subst l.
  destruct O as [<-|[<-|[<-|O]]]; [split; [reflexivity|exact Logic.I]..|exact (IH _ _ E o O)].
Qed.
Lemma when_ops : forall s f, (forall s, network_ops (f s) = [] /\ no_save (f s)) -> forall o, In o (when s f) -> network_ops o = [] /\ no_save o.
Proof. intros s f F o O. unfold when in O. destruct (truthy s); [destruct O as [<-|[]]; apply F|destruct O]. Qed.

Section Written.
  Variables vendor description license : option cstr.
  Variable t : tables.
  Variable os : list call.
  Hypothesis wf : tables_wf t.
  Hypothesis done : handle_write vendor description license t = Some os.

  Lemma handle_parts : exists id ases nets ctrys,
    write_ases 0 (as_rows t) = Some (id, ases) /\ write_networks t = Some nets /\ write_countries id (country_rows t) = Some ctrys /\
    os = (when vendor SetVendor ++ when description SetDescription ++ when license SetLicense) ++ ases ++ nets ++ ctrys.
  Proof.
    unfold handle_write in done. destruct (write_ases 0 (as_rows t)) as [[id ases]|]; [|discriminate].
    destruct (write_networks t) as [nets|]; [|discriminate]. destruct (write_countries id (country_rows t)) as [ctrys|] eqn:C; [|discriminate].
    exists id, ases, nets, ctrys. split; [reflexivity|]. split; [reflexivity|]. split; [exact C|]. rewrite <- !app_assoc. congruence.
  Qed.
  Lemma meta_ops : forall o, In o (when vendor SetVendor ++ when description SetDescription ++ when license SetLicense) ->
    network_ops o = [] /\ no_save o.
  Proof.
    intros o O. rewrite !in_app_iff in O.
    destruct O as [O|[O|O]]; (eapply when_ops; [|exact O]); intros; (split; [reflexivity|exact Logic.I]).
  Qed.
  Lemma no_saves : Forall no_save os.
  Proof.
    destruct handle_parts as (id & a & n & c & A & N1 & C & E). rewrite E. apply Forall_forall. intros o O.
    rewrite !(in_app_iff _ _ o) in O. rewrite <- !in_app_iff in O.
    assert (O' : In o (when vendor SetVendor ++ when description SetDescription ++ when license SetLicense) \/ In o a \/ In o n \/ In o c).
    { rewrite !in_app_iff in *. tauto. }
    destruct O' as [K|[K|[K|K]]].
    - apply meta_ops, K.
    - exact (proj2 (ases_ops _ _ _ _ A o K)).
    - destruct (written_pairs t n wf N1) as (rows & ps & _ & -> & _). apply in_flat_map in K.
      destruct K as (p & _ & [<-|[<-|[]]]); exact Logic.I.
    - exact (proj2 (countries_ops _ _ _ C o K)).
  Qed.
  (** the networks, each with what its row says *)
  Lemma given_rows : exists rows ps, compile_rows t = Some rows /\ Forall2 (fun r p => makes r (fst p) (snd p)) rows ps /\
    (forall z, In z (given os) <-> exists p, In p ps /\ z = with_attributes (fst p) (snd p)).
  Proof.
    destruct handle_parts as (id & a & n & c & A & N1 & C & E).
    destruct (written_pairs t n wf N1) as (rows & ps & R & L & M). exists rows, ps. split; [exact R|]. split; [exact M|].
    assert (G : given os = rev (map (fun x => with_attributes (fst x) (snd x)) ps)).
    { rewrite E. rewrite given_skip by (intros o O; exact (proj1 (meta_ops o O))).
      rewrite given_skip by (intros o O; exact (proj1 (ases_ops _ _ _ _ A o O))).
      rewrite given_app by (intros o O; exact (proj1 (countries_ops _ _ _ C o O))).
      rewrite L. unfold given. rewrite set_run_pairs; [apply app_nil_r| |intros x y _ []].
      pose proof (rows_once t rows R) as ND.
      assert (WR : forall r, In r rows -> net_wf (n_net r)) by (intros r I0; apply wf, (rows_known t rows R r I0)).
      clear - M ND WR. induction M as [|r p rows ps M1 M IH]; [constructor|]. cbn in ND. inversion ND as [|? ? ND1 ND2]; subst.
      constructor; [|apply IH; [exact ND2|intros q Q; apply WR; right; exact Q]].
      apply Forall_forall. intros q Q. destruct (forall2_in_r _ _ _ _ _ _ M Q) as (r' & R' & M2).
      destruct (same_block (fst q) (fst p)) eqn:SB; [exfalso|reflexivity]. apply ND1.
      destruct M1 as [M1 _], M2 as [M2 _].
      replace (n_net r) with (n_net r'); [apply in_map, R'|].
      apply (mapped_inj _ _ _ _ (WR r' (or_intror R')) (WR r (or_introl eq_refl)) M2 M1 SB). }
    intro z. rewrite G, <- in_rev, in_map_iff. split; intros (p & X & Y); exists p; auto.
  Qed.
End Written.

(** ** Addresses of the library *)
Section Address.
  Variables (t : tables) (rows : list nrow) (ps : list (network * (cc2 * N * N))) (zs : list network).
  Hypothesis wf : tables_wf t.
  Hypothesis rows_ok : compile_rows t = Some rows.
  Hypothesis made : Forall2 (fun r p => makes r (fst p) (snd p)) rows ps.
  Hypothesis inz : forall z, In z zs <-> exists p, In p ps /\ z = with_attributes (fst p) (snd p).
  Hypothesis all_usual : forall n, known t n -> usual n.

  Definition shows (r : nrow) (z : network) : Prop :=
    get_country_code z = code_of (a_country (n_at r)) /\ n_asn z = number_of (n_autnum r) /\ n_flags z = flags_of (n_at r).

  Lemma row_net : forall r n a, net_wf (n_net r) -> makes r n a ->
    shows r (with_attributes n a) /\ valid_network n /\ n_prefix (with_attributes n a) = raw (n_net r) /\
    num (n_first n) = mapped (p_bits (n_net r)) (p_base (n_net r)) /\
    forall w, member (with_attributes n a) w <-> mapped (p_bits (n_net r)) (p_base (n_net r)) <= w < mapped (p_bits (n_net r)) (p_base (n_net r)) + size_of (n_net r).
  Proof.
    intros r n a W (M1 & _ & M3 & M4 & M5). destruct (new_of_pnet _ _ W M1) as (V & F & P & L & _).
    destruct a as [[c s] f]. cbn in M3, M4, M5. split; [unfold shows, get_country_code; cbn; auto|].
    split; [exact V|]. split; [exact P|]. split; [exact F|]. intro w. unfold member. cbn [with_attributes n_first n_last]. rewrite F. lia.
  Qed.
  Lemma member_holds : forall r n a bits v, In r rows -> makes r n a -> fits bits v ->
    (member (with_attributes n a) (mapped bits v) <-> p_bits (n_net r) = bits /\ holds (n_net r) v).
  Proof.
    intros r n a bits v R M F. pose proof (rows_known t rows rows_ok r R) as K.
    assert (W : net_wf (n_net r)) by (apply wf, K). destruct (row_net r n a W M) as (_ & _ & _ & _ & Q). rewrite Q.
    pose proof (size_bound _ W) as SB. pose proof (all_usual _ K) as U. unfold holds.
    destruct W as ([B|B] & _), F as [[-> F]|(-> & F & NI)]; unfold mapped; rewrite ?B in *; cbn [N.eqb Pos.eqb].
    - lia.
    - split; [|intros [X _]; discriminate]. intro X. exfalso. apply NI. unfold is_ipv4.
      change 0xffff00000000 with (65535 * 2 ^ 32). change 0xffffffffffff with (65535 * 2 ^ 32 + 2 ^ 32 - 1). lia.
    - split; [|intros [X _]; discriminate]. intro X. exfalso. destruct U as [U|[U _]]; [rewrite B in U; discriminate|lia].
    - tauto.
  Qed.
  Lemma prefix_order : forall r q, In r rows -> In q rows -> p_bits (n_net r) = p_bits (n_net q) ->
    ((raw (n_net r) <= raw (n_net q))%nat <-> p_len (n_net r) <= p_len (n_net q)).
  Proof. intros r q _ _ B. unfold raw. rewrite B. destruct (p_bits (n_net q) =? 32); lia. Qed.
  Lemma specific_nearest : forall bits v z, fits bits v ->
    (most_specific zs (mapped bits v) z <-> exists r p, nearest n_net (fun r => In r rows) bits v r /\ In p ps /\ makes r (fst p) (snd p) /\ z = with_attributes (fst p) (snd p)).
  Proof.
    intros bits v z F.
    assert (WR : forall r, In r rows -> net_wf (n_net r)) by (intros r I0; apply wf, (rows_known t rows rows_ok r I0)).
    split.
    - intros (Z1 & Z2 & Z3). apply inz in Z1. destruct Z1 as (p & P & ->). destruct (forall2_in_r _ _ _ _ _ _ made P) as (r & R & M).
      exists r, p. split; [|auto]. apply (member_holds r _ _ bits v R M F) in Z2. destruct Z2 as [B H]. split; [split; auto|].
      intros q (Q1 & Q2 & Q3). destruct (forall2_in_l _ _ _ _ _ _ made Q1) as (p' & P' & M').
      apply (prefix_order q r Q1 R); [congruence|].
      destruct (row_net q _ _ (WR q Q1) M') as (_ & _ & <- & _). destruct (row_net r _ _ (WR r R) M) as (_ & _ & <- & _).
      apply Z3; [apply inz; eauto|]. apply (member_holds q _ _ bits v Q1 M' F). auto.
    - intros (r & p & ((R1 & R2 & R3) & R4) & P & M & ->). split; [apply inz; eauto|]. split; [apply (member_holds r _ _ bits v R1 M F); auto|].
      intros y Y H. apply inz in Y. destruct Y as (p' & P' & ->). destruct (forall2_in_r _ _ _ _ _ _ made P') as (q & Q & M').
      apply (member_holds q _ _ bits v Q M' F) in H. destruct H as [B H].
      destruct (row_net q _ _ (WR q Q) M') as (_ & _ & -> & _). destruct (row_net r _ _ (WR r R1) M) as (_ & _ & -> & _).
      apply (prefix_order q r Q R1); [congruence|]. apply R4. split; auto.
  Qed.
  Lemma usual_enumerable : enumerable zs.
  Proof.
    assert (Q : forall z, In z zs -> exists r, In r rows /\ known t (n_net r) /\ net_wf (n_net r) /\ n_prefix z = raw (n_net r) /\
      num (n_first z) = mapped (p_bits (n_net r)) (p_base (n_net r)) /\ forall w, member z w <-> num (n_first z) <= w < num (n_first z) + size_of (n_net r)).
    { intros z Z. apply inz in Z. destruct Z as (p & P & ->). destruct (forall2_in_r _ _ _ _ _ _ made P) as (r & R & M).
      pose proof (rows_known t rows rows_ok r R) as K. assert (W : net_wf (n_net r)) by (apply wf, K).
      destruct (row_net r _ _ W M) as (_ & _ & E1 & E2 & E3). exists r. split; [exact R|]. split; [exact K|]. split; [exact W|]. split; [exact E1|].
      destruct p as [n [[c s] f]]. cbn [fst snd with_attributes n_first] in *. split; [exact E2|]. intro w. rewrite E3, E2. tauto. }
    split.
    - intros z Z [P M]. destruct (Q z Z) as (r & R & K & W & E1 & E2 & E3). apply E3 in M. rewrite E2 in M. rewrite E1 in P. unfold raw in P.
      destruct (all_usual _ K) as [B|[B _]]; [rewrite B in P; cbn [N.eqb Pos.eqb] in P; lia|].
      destruct (N.eqb_spec (p_bits (n_net r)) 32) as [X|X]; [lia|]. unfold mapped in M. apply N.eqb_neq in X. rewrite X in M. lia.
    - intros z Z P C. destruct (Q z Z) as (r & R & K & W & E1 & E2 & E3). rewrite E2 in C. rewrite E1 in P. unfold raw in P.
      assert (L : p_len (n_net r) = p_bits (n_net r)).
      { destruct W as ([B|B] & LB & _); rewrite B in *; cbn [N.eqb Pos.eqb] in P; lia. }
      assert (S1 : size_of (n_net r) = 1) by (unfold size_of; rewrite L, N.sub_diag; reflexivity).
      pose proof (size_bound _ W) as SB. rewrite S1 in SB.
      apply crowded_lone in C.
      + destruct (all_usual _ K) as [B|[_ B]].
        * rewrite B in *. unfold mapped in C. cbn [N.eqb Pos.eqb] in C. destruct C as [C|[k C]]; [lia|].
          assert (k < 48) by (apply (N.pow_lt_mono_r_iff 2); [lia|rewrite <- C; change (2 ^ 48) with (65535 * 2 ^ 32 + 2 ^ 32); lia]).
          assert (47 < k) by (apply (N.pow_lt_mono_r_iff 2); [lia|rewrite <- C; change (2 ^ 47) with (32768 * 2 ^ 32); lia]). lia.
        * destruct (N.eq_dec (p_bits (n_net r)) 32) as [X|X].
          { rewrite X in *. unfold mapped in C. cbn [N.eqb Pos.eqb] in C. destruct C as [C|[k C]]; [lia|].
            assert (k < 48) by (apply (N.pow_lt_mono_r_iff 2); [lia|rewrite <- C; change (2 ^ 48) with (65535 * 2 ^ 32 + 2 ^ 32); lia]).
            assert (47 < k) by (apply (N.pow_lt_mono_r_iff 2); [lia|rewrite <- C; change (2 ^ 47) with (32768 * 2 ^ 32); lia]). lia. }
          destruct (B S1) as [B1 B2]. unfold mapped in C. apply N.eqb_neq in X. rewrite X in C. destruct C as [C|[k C]]; [exact (B1 C)|exact (B2 k C)].
      + unfold mapped. destruct W as ([B|B] & _ & _ & X); rewrite B in *; cbn [N.eqb Pos.eqb]; [|exact X].
        change (2 ^ 128) with (2 ^ 96 * 2 ^ 32). assert (65536 < 2 ^ 96) by reflexivity. lia.
  Qed.
End Address.
