(** What the listing commands print for databases that were written. *)
From Coq Require Import String.
From Coq Require Import NArith ZArith List Bool Arith Lia ZifyBool ZifyNat ZifyN Sorting.Sorted.
From Verif Require Import Base LemmasBase ModelAddress ModelCountryCode ModelNetwork LemmasNetwork ModelNetworkList SpecNetworkList
  ModelTree SpecTree LemmasSpecNetwork ModelStringPool ModelObjects ModelText SpecText LemmasText
  ModelFile ModelWriter ModelDatabase ModelEnum SpecEnum ModelExport SpecNetwork SpecObjects SpecExport SpecWriter
  LemmasObjects LemmasWriter LemmasDb LemmasDbCountry LemmasDbProps LemmasLookupDb LemmasTwice LemmasEnumAs LemmasEnumDb LemmasEnumFlatDb LemmasEnumBogonDb LemmasExport LemmasExportText
  ModelDownload ModelUpdate LemmasUpdateDb ModelBindings ModelCommand SpecCommand LemmasBindings LemmasCommand LemmasBindingsDb ModelList SpecList LemmasList.
Import ListNotations.
Open Scope N_scope.
Local Opaque cleanup.

Section Db.
Variables (ctz0 : nat) (held : network -> bool) (key1 key2 : option evp).
Variables (os : list call) (w : writer) (x : save) (w' : writer) (f : list N) (d : db).
Hypothesis Call : Forall call_ok os.
Hypothesis Prog : program ctz0 held key1 key2 os = Ok w.
Hypothesis Write : write_to ctz0 held key1 key2 w x = Ok (0%Z, w', f).
Hypothesis Size : N.of_nat (length f) < 2 ^ 32.
Hypothesis Now : s_now x < 2 ^ 64.
Hypothesis Open : db_open f = Ok d.

Lemma read_wf z : In z (stored (w_tree w')) -> net_wf (as_read z).
Proof.
  intros I1. pose proof (stored_after_wf _ _ _ _ _ _ _ _ _ _ Call Prog Write Size Now Open z I1) as W. clear -W. constructor; try apply W; auto.
  - cbn [as_read n_cc]. pose proof (w_cc z W) as C. destruct (N.eqb_spec (fst (n_cc z)) 0); auto. left. cbn. lia.
  - change (n_flags (as_read z)) with (n_flags z mod 2 ^ 16). pose proof (N.mod_lt (n_flags z) (2 ^ 16) ltac:(lia)). lia.
Qed.

Section Listing.
Hypothesis NoSave : Forall no_save os.
Hypothesis Enum : enumerable (given os).

(** One set of networks for all searches *)
Lemma search_meaning beyond fuel : (3 * N.to_nat (snd (d_tree d)) + 1 <= fuel)%nat ->
  exists Ns, SpecNetworkList.ascending Ns /\ Forall valid_network Ns /\ Forall net_wf Ns /\
  (forall l, Forall setting_ok l -> exists L, enumerates (next_network beyond d fuel None) (configured Networks false l) L /\
     (length L < N.to_nat (snd (d_tree d)) + 1)%nat /\
     SpecNetworkList.ascending L /\ Forall valid_network L /\ forall n, In n L <-> In n Ns /\ wanted l n) /\
  forall v c a fl, v < 2 ^ 128 ->
    (exists z, most_specific Ns v z /\ get_country_code z = c /\ n_asn z = a /\ n_flags z = fl) <->
    (exists z, most_specific (given os) v z /\ get_country_code z = c /\ n_asn z = a /\ n_flags z mod 2 ^ 16 = fl).
Proof.
  intros Fu. destruct (enumerable_stored _ _ _ _ _ _ _ _ _ _ Call Prog Write Size Now Open NoSave Enum) as [St Cr].
  exists (map as_read (stored (w_tree w'))).
  destruct (enumerate_networks _ _ _ _ _ _ _ _ _ _ Call Prog Write Size Now Open beyond fuel None [] ltac:(constructor) Fu St Cr) as (Ns & _ & A & H).
  assert (V : forall n, In n (map as_read (stored (w_tree w'))) -> valid_network n /\ net_wf n).
  { intros n I1. apply in_map_iff in I1 as (y & <- & I1). pose proof (read_wf y I1) as W. split; [now apply valid_net_wf|exact W]. }
  split.
  { destruct (tree_after _ _ _ _ _ _ _ _ _ _ Call Prog Write Size Now Open) as [T _].
    pose proof (stored_ascending _ [] (proj1 T)) as B. clear -B. unfold SpecNetworkList.ascending in *.
    induction B as [|a m B IH F]; [constructor|]. cbn [map]. constructor; auto. apply Forall_forall. intros b I1.
    apply in_map_iff in I1 as (c & <- & I1). rewrite Forall_forall in F. exact (F c I1). }
  split; [apply Forall_forall; intros n I1; apply V; exact I1|].
  split; [apply Forall_forall; intros n I1; apply V; exact I1|]. split.
  - intros l Sl. destruct (enumerate_networks _ _ _ _ _ _ _ _ _ _ Call Prog Write Size Now Open beyond fuel None l Sl Fu St Cr) as (L & E & AL & HL).
    exists L. split; [exact E|]. assert (In_iff : forall n, In n L <-> In n (map as_read (stored (w_tree w'))) /\ wanted l n).
    { intros n. rewrite HL, in_map_iff. split; [intros (y & X1 & X2 & X3); eauto|intros [(y & X1 & X2) X3]; eauto]. }
    split; [|split; [exact AL|split; [|exact In_iff]]].
    + destruct E as (e1 & e2 & R & _). apply any_file in R as [R _]; [|exact Fu]. apply Nat.lt_succ_r in R. now rewrite Nat.add_1_r.
    + apply Forall_forall. intros n I1. apply In_iff in I1 as [I1 _]. now apply V.
  - apply (read_meaning _ _ _ _ _ _ _ _ _ _ Call Prog Write Size Now Open NoSave).
    intros n. rewrite in_map_iff. split; intros (y & X1 & X2); eauto.
Qed.

Lemma mode_networks l : of_networks (configured Networks false l).
Proof. left. apply (configured_state Networks false l). Qed.

Lemma flags_bits (a b c e : bool) (v : N) :
  N.land v (N.lor (N.lor (N.lor (if a then 1 else 0) (if b then 2 else 0)) (if c then 4 else 0)) (if e then 8 else 0)) <> 0 <->
  (a = true /\ N.testbit v 0 = true) \/ (b = true /\ N.testbit v 1 = true) \/ (c = true /\ N.testbit v 2 = true) \/ (e = true /\ N.testbit v 3 = true).
Proof.
  assert (T : forall (q : bool) i k, N.testbit (if q then 2 ^ i else 0) k = q && (k =? i)).
  { intros q i k. destruct q; [|apply N.bits_0]. rewrite N.pow2_bits_eqb. now rewrite N.eqb_sym. }
  change (if a then 1 else 0) with (if a then 2 ^ 0 else 0). change (if b then 2 else 0) with (if b then 2 ^ 1 else 0).
  change (if c then 4 else 0) with (if c then 2 ^ 2 else 0). change (if e then 8 else 0) with (if e then 2 ^ 3 else 0).
  split.
  - intros H. destruct (N.eq_dec (N.land v (N.lor (N.lor (N.lor (if a then 2 ^ 0 else 0) (if b then 2 ^ 1 else 0)) (if c then 2 ^ 2 else 0)) (if e then 2 ^ 3 else 0))) 0) as [Z|Z]; [congruence|].
    assert (B : exists k, N.testbit (N.land v (N.lor (N.lor (N.lor (if a then 2 ^ 0 else 0) (if b then 2 ^ 1 else 0)) (if c then 2 ^ 2 else 0)) (if e then 2 ^ 3 else 0))) k = true).
    { eexists. apply N.bit_log2. exact Z. }
    destruct B as [k B]. rewrite N.land_spec, !N.lor_spec, !T in B. apply andb_true_iff in B as [V B].
    rewrite !orb_true_iff, !andb_true_iff, !N.eqb_eq in B.
    destruct B as [[[[Qa ->]|[Qb ->]]|[Qc ->]]|[Qe ->]]; tauto.
  - intros H Z. assert (B : forall k, N.testbit v k && (a && (k =? 0) || b && (k =? 1) || c && (k =? 2) || e && (k =? 3)) = false).
    { intros k. pose proof (N.bits_0 k) as Q. rewrite <- Z in Q. rewrite N.land_spec, !N.lor_spec, !T in Q. exact Q. }
    pose proof (B 0) as B0. pose proof (B 1) as B1. pose proof (B 2) as B2. pose proof (B 3) as B3. clear B Z.
    destruct H as [[-> V]|[[-> V]|[[-> V]|[-> V]]]].
    + rewrite V in B0. discriminate B0.
    + rewrite V in B1. rewrite andb_true_l, !orb_false_iff in B1. destruct B1 as [[[_ B1] _] _]. discriminate B1.
    + rewrite V in B2. rewrite andb_true_l, !orb_false_iff in B2. destruct B2 as [[_ B2] _]. discriminate B2.
    + rewrite V in B3. rewrite andb_true_l, !orb_false_iff in B3. destruct B3 as [_ B3]. discriminate B3.
Qed.

Lemma list_ok beyond fuel objects replaced : (3 * N.to_nat (snd (d_tree d)) + 1 <= fuel)%nat -> (N.to_nat (snd (d_tree d)) + 1 <= objects)%nat ->
  exists Ns, SpecNetworkList.ascending Ns /\
  (forall v c a fl, v < 2 ^ 128 ->
    (exists z, most_specific Ns v z /\ get_country_code z = c /\ n_asn z = a /\ n_flags z = fl) <->
    (exists z, most_specific (given os) v z /\ get_country_code z = c /\ n_asn z = a /\ n_flags z mod 2 ^ 16 = fl)) /\
  forall fmt fam, printable fmt fam ->
  (forall asn digits, asn < 2 ^ 32 -> plain_decimal digits asn -> exists L lines,
     list_by_as beyond fuel objects replaced d fmt (option_number fam) (Z.of_N asn) = Ok (mkEnded 0 lines []) /\
     lists fmt (txt "AS" ++ digits) fam L lines /\ SpecNetworkList.ascending L /\
     forall n, In n L <-> In n Ns /\ of_family fam n /\ n_asn n = asn) /\
  (forall code, cc_is_valid (Some code) = true -> exists L lines,
     list_by_cc beyond fuel objects replaced d fmt (option_number fam) code = Ok (mkEnded 0 lines []) /\
     lists fmt code fam L lines /\ SpecNetworkList.ascending L /\
     forall n, In n L <-> In n Ns /\ of_family fam n /\ get_country_code n = code) /\
  (forall p s a e, p || s || a || e = true -> exists L lines,
     list_by_flags beyond fuel objects replaced d fmt (option_number fam) p s a e = Ok (mkEnded 0 lines []) /\
     lists fmt (txt "custom") fam L lines /\ SpecNetworkList.ascending L /\
     forall n, In n L <-> In n Ns /\ of_family fam n /\
       ((p = true /\ N.testbit (n_flags n) 0 = true) \/ (s = true /\ N.testbit (n_flags n) 1 = true) \/
        (a = true /\ N.testbit (n_flags n) 2 = true) \/ (e = true /\ N.testbit (n_flags n) 3 = true))).
Proof.
  intros Fu Ob. destruct (search_meaning beyond fuel Fu) as (Ns & A & _ & _ & Se & Me). exists Ns. split; [exact A|]. split; [exact Me|].
  intros fmt fam P. split; [|split].
  - intros asn digits B D. destruct (search_as fam asn B) as (l & E & Sl & W). destruct (Se l Sl) as (L & En & Ln & AL & V & H).
    pose proof (listing beyond fuel objects replaced d fmt (txt "AS" ++ digits) fam L _ P (mode_networks l) En ltac:(lia) V) as Q.
    exists L, (set_lines fmt (txt "AS" ++ digits) fam (map net_text L)). split; [|split; [now apply listing_lists|split; [exact AL|]]].
    + unfold list_by_as. rewrite E. replace (z_text (Z.of_N asn)) with digits.
      * rewrite Q. reflexivity.
      * apply (plain_decimal_inj _ _ asn); [exact D|]. unfold z_text. replace (Z.of_N asn <? 0)%Z with false by lia. rewrite N2Z.id. now apply dec_plain.
    + intros n. rewrite H, W. tauto.
  - intros code B. destruct (search_cc fam code B) as (l & E & Sl & W). destruct (Se l Sl) as (L & En & Ln & AL & V & H).
    pose proof (listing beyond fuel objects replaced d fmt code fam L _ P (mode_networks l) En ltac:(lia) V) as Q.
    exists L, (set_lines fmt code fam (map net_text L)). split; [|split; [now apply listing_lists|split; [exact AL|]]].
    + unfold list_by_cc. rewrite E, Q. reflexivity.
    + intros n. rewrite H, W. tauto.
  - intros p s a e B. unfold list_by_flags. cbv zeta.
    pose proof (flags_bits p s a e) as FB.
    set (flags := N.lor (N.lor (N.lor (if p then 1 else 0) (if s then 2 else 0)) (if a then 4 else 0)) (if e then 8 else 0)) in *.
    assert (Z : flags <> 0) by (unfold flags; destruct p, s, a, e; discriminate). clearbody flags.
    destruct (search_flags fam flags Z) as (l & E & Sl & W). destruct (Se l Sl) as (L & En & Ln & AL & V & H).
    pose proof (listing beyond fuel objects replaced d fmt (txt "custom") fam L _ P (mode_networks l) En ltac:(lia) V) as Q.
    exists L, (set_lines fmt (txt "custom") fam (map net_text L)). split; [|split; [now apply listing_lists|split; [exact AL|]]].
    + replace (flags =? 0) with false by lia. rewrite E, Q. reflexivity.
    + intros n. rewrite H, W, FB. tauto.
Qed.
End Listing.

(** ** Bogons *)
Lemma bogons_ok beyond replaced fmt fam : Forall no_save os -> ordinary (given os) -> printable fmt fam ->
  let G := map as_read (given os) in let l := family_setting fam in
  (forall fam, ~ assigned l G fam (first_address fam) /\ ~ assigned l G fam (last_address fam) /\ forall a, ~ gap l G fam a a) ->
  ~ attached l G ->
  exists L lines f0, lists fmt (txt "bogons") fam L lines /\ reports l G L /\
    forall fuel objects, (f0 <= fuel)%nat -> (f0 <= objects)%nat ->
    list_bogons beyond fuel objects replaced d fmt (option_number fam) = Ok (mkEnded 0 lines []).
Proof.
  intros NoSave O P G l H1 H2.
  destruct (bogons_meaning _ _ _ _ _ _ _ _ _ _ Call Prog Write Size Now Open NoSave O l beyond None false) as (L & f0 & E & R); auto.
  { unfold l, family_setting. destruct fam; repeat constructor. }
  pose proof (proj1 R) as V.
  assert (M : of_networks (configured Bogons false l)) by (right; apply (configured_state Bogons false l)).
  exists L, (set_lines fmt (txt "bogons") fam (map net_text L)), (Nat.max f0 (S (length L))). split; [now apply listing_lists|]. split; [exact R|].
  intros fuel objects F1 F2. unfold list_bogons.
  replace (iterate_all Bogons (option_number fam) false) with (configured Bogons false l) by (unfold l; destruct fam as [[|]|]; reflexivity).
  rewrite (listing beyond fuel objects replaced d fmt (txt "bogons") fam L _ P M (E fuel ltac:(lia)) ltac:(lia) V). reflexivity.
Qed.
End Db.
