(** Flattened enumeration of a written database *)
From Coq Require Import NArith ZArith List Bool Arith Lia ZifyBool ZifyNat ZifyN Sorting.Sorted.
From Verif Require Import Base LemmasBase ModelAddress LemmasAddress ModelCountryCode ModelNetwork LemmasNetwork ModelNetworkList
  LemmasNetworkList LemmasExclude ModelTree LemmasPath LemmasTree LemmasTreeProps LemmasSpecNetwork ModelStringPool ModelObjects
  ModelFile ModelWriter ModelDatabase SpecNetwork SpecStringPool SpecObjects SpecNetworkList SpecTree SpecWriter LemmasExcludeProps
  LemmasListProps LemmasObjects LemmasFile LemmasWriter LemmasWrite LemmasOpen LemmasDb LemmasDbProps LemmasNodes LemmasLookup LemmasLookupDb
  LemmasTwice ModelEnum SpecEnum LemmasEnumAs LemmasEnum LemmasEnumTree LemmasEnumDb LemmasEnumSafe LemmasEnumFlat.
Import ListNotations.
Open Scope N_scope.
Local Opaque cleanup.

Lemma wanted_attrs l x y : n_family x = n_family y -> attrs x = attrs y -> wanted l x <-> wanted l y.
Proof.
  intros F A. unfold attrs in A. injection A as A1 A2 A3. unfold wanted. rewrite F, A1, A2, A3. reflexivity.
Qed.

Lemma attr_eq_attrs x y : attr_eq x y <-> n_family x = n_family y /\ attrs x = attrs y.
Proof.
  unfold attr_eq, attrs, get_country_code. split.
  - intros (-> & -> & -> & ->). auto.
  - intros [F A]. injection A as A1 A2 A3. auto.
Qed.

Lemma read_wf y : net_wf y -> net_wf (as_read y).
Proof.
  intros W. constructor; try apply W; auto.
  - now apply as_read_cc.
  - change (n_flags (as_read y)) with (n_flags y mod 2 ^ 16). pose proof (N.mod_lt (n_flags y) (2 ^ 16) ltac:(lia)). lia.
Qed.

Lemma read_attrs y : attrs (as_read y) = (get_country_code y, n_asn y, n_flags y mod 2 ^ 16).
Proof.
  unfold attrs, get_country_code, as_read. cbn [n_cc n_asn n_flags]. destruct (n_cc y) as [c1 c2]. cbn [fst]. unfold cc_str.
  destruct (N.eqb_spec c1 0) as [->|]; [reflexivity|]. replace (c1 =? 0) with false by lia. reflexivity.
Qed.

Section Props.
Variables (ctz0 : nat) (held : network -> bool) (key1 key2 : option evp).
Variables (os : list call) (w : writer) (x : save) (w' : writer) (f : list N) (d : db).
Hypothesis Call : Forall call_ok os.
Hypothesis Prog : program ctz0 held key1 key2 os = Ok w.
Hypothesis Write : write_to ctz0 held key1 key2 w x = Ok (0%Z, w', f).
Hypothesis Size : N.of_nat (length f) < 2 ^ 32.
Hypothesis Now : s_now x < 2 ^ 64.
Hypothesis Open : db_open f = Ok d.

Lemma flat_networks beyond old l : Forall setting_ok l ->
  (forall y, In y (stored (w_tree w')) -> ~ straddles y) ->
  (forall y, In y (stored (w_tree w')) -> n_prefix y = 128%nat -> ~ crowded (stored (w_tree w')) (num (n_first y))) ->
  (forall y z, In y (stored (w_tree w')) -> In z (stored (w_tree w')) -> strictly_inside y z -> ~ crosses y z) ->
  exists L f0, (forall fuel, (f0 <= fuel)%nat -> enumerates (next_network beyond d fuel old) (configured Networks true l) L) /\
    Forall valid_network L /\ one_after_another L /\
    forall v fam at_, v < 2 ^ 128 ->
    (exists z, In z L /\ member z v /\ n_family z = fam /\ attrs z = at_) <->
    (exists y, most_specific (stored (w_tree w')) v y /\ wanted l (as_read y) /\ n_family y = fam /\ attrs (as_read y) = at_).
Proof.
  intros Sok St Cr Xr.
  destruct (whole_tree _ _ _ _ _ _ _ _ _ _ Call Prog Write Size Now Open beyond true Networks l St Cr) as (n & e' & S0 & En & _).
  destruct (tree_after _ _ _ _ _ _ _ _ _ _ Call Prog Write Size Now Open) as [T C].
  destruct (configured_state Networks true l) as (M & Fl & _ & _ & _ & _ & _ & Es & Eb & _). cbv zeta in *.
  set (e := configured Networks true l) in *. set (R := map as_read (stored (w_tree w'))) in *.
  assert (Sr : sorted R).
  { constructor.
    - apply Forall_forall. intros z I. apply in_map_iff in I as (y & <- & I). apply read_wf. exact (stored_wf _ _ T I).
    - pose proof (stored_ascending _ [] (proj1 T)) as A. unfold R. clear -A. unfold SpecNetworkList.ascending in *.
      induction A as [|a m A IH F]; [constructor|]. cbn [map]. constructor; auto. apply Forall_forall. intros b I.
      apply in_map_iff in I as (c & <- & I). rewrite Forall_forall in F. exact (F c I). }
  assert (Nb : no_bad R).
  { intros a b Ia Ib Sab Bad. apply in_map_iff in Ia as (y & <- & Iy). apply in_map_iff in Ib as (z & <- & Iz).
    apply (Xr y z Iy Iz).
    - apply strictly_inside_iff; [exact (stored_wf _ _ T Iy)|exact (stored_wf _ _ T Iz)|exact Sab].
    - apply crosses_iff. exact Bad. }
  assert (P : pend beyond d e e [] [] R).
  { split. { destruct e. do 5 eexists. reflexivity. }
    rewrite Es, Eb. split; [apply list_new_repr|]. split; [apply list_new_repr|]. eauto. }
  destruct (flat_all beyond d old e M Fl (nested ([] ++ R)) (length ([] ++ R)) [] R e (le_n _) (le_n _) P Sr Nb) as (L & f0 & Ls & Lw & L1 & L2 & G).
  cbn [app] in *. exists L, (Nat.max f0 (S (nested R))). split; [|split; [|split]].
  - intros fuel Lf. apply (gives_enumerates beyond d old e M Fl fuel (nested R)); [lia|apply P|apply G; lia].
  - apply Forall_forall. intros z I. rewrite Forall_forall in Lw. apply valid_net_wf. auto.
  - exact Ls.
  - assert (Kw : forall y, In y (stored (w_tree w')) -> keep e (as_read y) = true <-> wanted l (as_read y)).
    { intros y I. destruct (match_wanted Networks true l (as_read y) Sok (as_read_cc y (stored_wf _ _ T I))) as (b & Hb & B).
      fold e in Hb. unfold keep. rewrite Hb. exact B. }
    intros v fam at_ V. split.
    + intros (z & I & Mz & F & A). destruct (L1 z v I Mz) as (z' & (I' & M' & U) & Kz & E). apply in_map_iff in I' as (y & <- & I').
      apply attr_eq_attrs in E as [E1 E2]. exists y. split.
      { split; auto. split; [exact M'|]. intros u Iu Mu. apply (U (as_read u)); [now apply in_map|exact Mu]. }
      split; [now apply Kw|]. rewrite <- F, <- A, E1, E2. auto.
    + intros (y & (I & My & U) & Wa & F & A). destruct (L2 v (as_read y)) as (z & Iz & Mz & E).
      * split; [now apply in_map|]. split; [exact My|]. intros u Iu Mu. apply in_map_iff in Iu as (u' & <- & Iu). exact (U u' Iu Mu).
      * now apply Kw.
      * apply attr_eq_attrs in E as [E1 E2]. exists z. split; auto. split; [exact Mz|]. rewrite E1, E2. auto.
Qed.

(** ** in terms of the networks that were added *)
Hypothesis NoSave : Forall no_save os.

Lemma ordinary_crosses : ordinary (given os) ->
  forall y z, In y (stored (w_tree w')) -> In z (stored (w_tree w')) -> strictly_inside y z -> ~ crosses y z.
Proof.
  intros O y z Iy Iz [S0 _] X. pose proof (stored_after_wf _ _ _ _ _ _ _ _ _ _ Call Prog Write Size Now Open) as Wf.
  pose proof (inb_lo z (Wf z Iz)) as Mz. change (lo z) with (num (n_first z)) in Mz.
  assert (V : num (n_first z) < 2 ^ 49) by (destruct X as [[_ X]|[_ X]]; lia).
  assert (P : (79 < n_prefix z)%nat) by (destruct X as [[X _]|[X _]]; lia).
  assert (Py : (n_prefix y <= 95)%nat) by (destruct X as [[X _]|[X _]]; lia).
  assert (Fy : n_family y = AF_INET6) by (apply short_v6; auto).
  destruct (pieces _ _ _ _ _ _ _ _ _ _ Call Prog Write Size Now Open NoSave z _ Iz Mz) as (u & Iu & Fu & _ & Mu & Pu & _).
  pose proof (ordinary_family _ _ _ _ _ _ _ _ _ _ Call Prog Write Size Now Open NoSave O y u _ Iy Iu (S0 _ Mz) Mu) as Fyu.
  pose proof (ordinary_v6 _ _ _ _ _ _ _ _ _ _ Call Prog Write Size Now Open NoSave O z _ Iz ltac:(congruence) Mz V). lia.
Qed.

Lemma flat_meaning beyond old l : Forall setting_ok l -> ordinary (given os) ->
  exists L f0, (forall fuel, (f0 <= fuel)%nat -> enumerates (next_network beyond d fuel old) (configured Networks true l) L) /\
    Forall valid_network L /\ one_after_another L /\
    forall v fam at_, v < 2 ^ 128 ->
    (exists z, In z L /\ member z v /\ n_family z = fam /\ attrs z = at_) <->
    (exists y, most_specific (given os) v y /\ wanted l (as_read y) /\ n_family y = fam /\ attrs (as_read y) = at_).
Proof.
  intros Sok O. destruct (enumerable_stored _ _ _ _ _ _ _ _ _ _ Call Prog Write Size Now Open NoSave (ordinary_enumerable _ _ _ _ _ _ _ _ Call Prog Size Now NoSave O)) as [St Cr].
  destruct (flat_networks beyond old l Sok St Cr (ordinary_crosses O)) as (L & f0 & E & V & A & H).
  exists L, f0. split; [exact E|]. split; [exact V|]. split; [exact A|]. intros v fam at_ B. rewrite H by exact B.
  pose proof (fun c => same_attributes _ _ _ _ _ _ _ _ _ _ Call Prog Write Size Now Open v c B) as Sa.
  assert (Mg : forall z, most_specific (given os) v z <-> most_specific (stored (w_tree w)) v z).
  { pose proof (given_iff _ _ _ _ _ _ Call NoSave Prog) as G. intros z. split; apply most_given; intros u; [symmetry|]; apply G. }
  assert (Ra : forall y z, attributes y = attributes z -> attrs (as_read y) = attrs (as_read z)).
  { intros y z Q. unfold attributes in Q. injection Q as Q1 Q2 Q3. rewrite !read_attrs. unfold get_country_code. now rewrite Q1, Q2, Q3. }
  split.
  - intros (y & Y & Wa & F & At). destruct (proj2 (Sa (attributes y)) ltac:(eauto)) as (z & Z & Q). apply Mg in Z.
    pose proof (ordinary_family _ _ _ _ _ _ _ _ _ _ Call Prog Write Size Now Open NoSave O y z v (proj1 Y) (proj1 Z) (proj1 (proj2 Y)) (proj1 (proj2 Z))) as Fyz.
    exists z. split; auto. rewrite (Ra z y Q). rewrite <- Fyz. split; auto. apply (wanted_attrs l (as_read y)); auto. 
  - intros (z & Z & Wa & F & At). pose proof (proj1 (Mg z) Z) as Z'. destruct (proj1 (Sa (attributes z)) ltac:(eauto)) as (y & Y & Q).
    pose proof (ordinary_family _ _ _ _ _ _ _ _ _ _ Call Prog Write Size Now Open NoSave O y z v (proj1 Y) (proj1 Z) (proj1 (proj2 Y)) (proj1 (proj2 Z))) as Fyz.
    exists y. split; auto. rewrite (Ra y z Q). rewrite Fyz. split; auto. apply (wanted_attrs l (as_read z)); auto.
Qed.
End Props.
