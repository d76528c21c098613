(** Lookups in terms of what was added, and writing twice *)
From Coq Require Import NArith ZArith List Bool Arith Lia Permutation ZifyBool ZifyNat ZifyN.
From Verif Require Import Base LemmasBase ModelAddress LemmasAddress ModelCountryCode ModelNetwork LemmasNetwork ModelNetworkList
  ModelTree LemmasPath LemmasTree LemmasMergeTree LemmasTreeProps LemmasSpecNetwork ModelStringPool ModelObjects
  ModelFile ModelWriter ModelDatabase SpecNetwork SpecStringPool SpecObjects SpecTree SpecWriter
  LemmasFile LemmasWriter LemmasWrite LemmasOpen LemmasDb LemmasDbProps LemmasNodes LemmasLookup LemmasLookupDb.
Import ListNotations.
Open Scope N_scope.
Local Opaque cleanup.

Lemma given_iff ctz0 held key1 key2 os w : Forall call_ok os -> Forall no_save os ->
  program ctz0 held key1 key2 os = Ok w -> forall y, In y (stored (w_tree w)) <-> In y (given os).
Proof.
  intros C NS P y. destruct (program_tree _ _ _ _ os w C P) as [rs E].
  destruct (history_set ctz0 held (flat_map network_ops os)) as (t & rs' & E' & _ & Pe).
  - now apply network_ops_ok.
  - clear -NS. induction NS as [|o os N NS IH]; cbn [flat_map]; [constructor|]. apply Forall_app. split; auto.
    destruct o; cbn [network_ops no_save] in *; try contradiction; repeat constructor.
  - rewrite E in E'. apply (f_equal (fun r => match r with Ok (t, _) => t | _ => Nil end)) in E'. cbv beta iota in E'. subst t.
    split; apply Permutation_in; auto. now apply Permutation_sym.
Qed.

Lemma most_given Ns Ms v z : (forall y, In y Ns <-> In y Ms) -> most_specific Ns v z -> most_specific Ms v z.
Proof. intros H (I & M & U). split; [now apply H|]. split; auto. intros y Iy. apply U. now apply H. Qed.

Section Given.
Variables (ctz0 : nat) (held : network -> bool) (key1 key2 : option evp).
Variables (os : list call) (w : writer) (x : save) (w' : writer) (f : list N) (d : db).
Hypothesis Call : Forall call_ok os.
Hypothesis NoSave : Forall no_save os.
Hypothesis Prog : program ctz0 held key1 key2 os = Ok w.
Hypothesis Write : write_to ctz0 held key1 key2 w x = Ok (0%Z, w', f).
Hypothesis Size : N.of_nat (length f) < 2 ^ 32.
Hypothesis Now : s_now x < 2 ^ 64.
Hypothesis Open : db_open f = Ok d.

Lemma given_sound beyond fuel a y r : is_addr a -> (129 <= fuel)%nat -> lookup beyond d a fuel = Ok (Some y, r) ->
  r = 0%Z /\ member y (num a) /\
  exists z, most_specific (given os) (num a) z /\
    get_country_code y = get_country_code z /\ n_asn y = n_asn z /\ n_flags y = n_flags z mod 2 ^ 16.
Proof.
  intros A Hf E. destruct (lookup_sound _ _ _ _ _ _ _ _ _ _ Call Prog Write Size Now Open _ _ _ _ _ A Hf E) as (R & M & z & Mz & At).
  split; auto. split; auto. exists z. split; auto. eapply most_given; [|exact Mz]. exact (given_iff _ _ _ _ _ _ Call NoSave Prog).
Qed.

Lemma given_nothing beyond fuel a : is_addr a -> (129 <= fuel)%nat ->
  (forall y, In y (given os) -> ~ member y (num a)) -> lookup beyond d a fuel = Ok (None, 0%Z).
Proof.
  intros A Hf H. apply (lookup_nothing _ _ _ _ _ _ _ _ _ _ Call Prog Write Size Now Open); auto.
  intros y Iy. apply H. now apply (given_iff _ _ _ _ _ _ Call NoSave Prog).
Qed.

Lemma given_complete beyond fuel a z : is_addr a -> (129 <= fuel)%nat ->
  (forall y z, In y (given os) -> In z (given os) -> ~ encloses y z) ->
  In z (given os) -> member z (num a) ->
  (is_ipv4 (num a) -> n_family z = AF_INET) ->
  lookup beyond d a fuel = UB \/
  exists y, lookup beyond d a fuel = Ok (Some y, 0%Z) /\ member y (num a) /\
    get_country_code y = get_country_code z /\ n_asn y = n_asn z /\ n_flags y = n_flags z mod 2 ^ 16.
Proof.
  pose proof (given_iff _ _ _ _ _ _ Call NoSave Prog) as G.
  intros A Hf H I. apply (lookup_complete _ _ _ _ _ _ _ _ _ _ Call Prog Write Size Now Open); auto.
  - intros y1 z1 I1 I2. apply H; now apply G.
  - now apply G.
Qed.

Lemma given_attributes beyond fuel a y r : is_addr a -> (129 <= fuel)%nat ->
  (forall z, In z (given os) -> n_flags z < 2 ^ 16) ->
  lookup beyond d a fuel = Ok (Some y, r) ->
  exists z, most_specific (given os) (num a) z /\
    get_country_code y = get_country_code z /\ n_asn y = n_asn z /\ n_flags y = n_flags z.
Proof.
  intros A Hf Fl E. destruct (given_sound _ _ _ _ _ A Hf E) as (_ & _ & z & M & A1 & A2 & A3).
  exists z. split; auto. split; auto. split; auto. rewrite A3. apply N.mod_small. apply Fl. apply M.
Qed.
End Given.

(** ** twice *)
Lemma run_snoc ctz0 held key1 key2 o os : forall w w1 w2, run ctz0 held key1 key2 w os = Ok w1 ->
  step ctz0 held key1 key2 w1 o = Ok w2 -> run ctz0 held key1 key2 w (os ++ [o]) = Ok w2.
Proof.
  induction os as [|o' os IH]; intros w w1 w2 R S1; cbn [run app] in *.
  - replace w with w1 by (injection R; auto). rewrite S1. reflexivity.
  - destruct (step ctz0 held key1 key2 w o') as [w0| | |]; try discriminate. cbn [bind] in *. eauto.
Qed.

Lemma program_save ctz0 held key1 key2 os w x r w' f : program ctz0 held key1 key2 os = Ok w ->
  write_to ctz0 held key1 key2 w x = Ok (r, w', f) -> program ctz0 held key1 key2 (os ++ [Save x]) = Ok w'.
Proof.
  unfold program. destruct writer_new as [w0| | |]; try discriminate. cbn [bind]. intros P W.
  eapply run_snoc; [exact P|]. cbn [step]. rewrite W. reflexivity.
Qed.
Lemma meaning_save os x : meaning (os ++ [Save x]) = meaning os.
Proof. unfold meaning. rewrite fold_left_app. reflexivity. Qed.

Section Twice.
Variables (ctz0 : nat) (held : network -> bool) (key1 key2 : option evp).
Variables (os : list call) (w : writer) (x1 x2 : save) (w1 w2 : writer) (f1 f2 : list N) (d1 d2 : db).
Hypothesis Call : Forall call_ok os.
Hypothesis Prog : program ctz0 held key1 key2 os = Ok w.
Hypothesis Write1 : write_to ctz0 held key1 key2 w x1 = Ok (0%Z, w1, f1).
Hypothesis Write2 : write_to ctz0 held key1 key2 w1 x2 = Ok (0%Z, w2, f2).
Hypothesis Size1 : N.of_nat (length f1) < 2 ^ 32.
Hypothesis Size2 : N.of_nat (length f2) < 2 ^ 32.
Hypothesis Now1 : s_now x1 < 2 ^ 64.
Hypothesis Now2 : s_now x2 < 2 ^ 64.
Hypothesis Open1 : db_open f1 = Ok d1.
Hypothesis Open2 : db_open f2 = Ok d2.

Let os1 := os ++ [Save x1].
Lemma Call1 : Forall call_ok os1.
Proof using Call. apply Forall_app. split; auto. repeat constructor. Qed.
Lemma Prog1 : program ctz0 held key1 key2 os1 = Ok w1.
Proof using Prog Write1. eapply program_save; eauto. Qed.

Lemma twice_strings :
  get_vendor d1 = get_vendor d2 /\ get_description d1 = get_description d2 /\ get_license d1 = get_license d2 /\
  count_as d1 = count_as d2.
Proof using All.
  destruct (written_metadata _ _ _ _ _ _ _ _ _ Call Prog Write1 Size1 Now1) as (e1 & E1 & V1 & D1 & L1 & _ & C1).
  destruct (written_metadata _ _ _ _ _ _ _ _ _ Call1 Prog1 Write2 Size2 Now2) as (e2 & E2 & V2 & D2 & L2 & _ & C2).
  unfold os1 in *. rewrite meaning_save in V2, D2, L2, C2.
  rewrite Open1 in E1. rewrite Open2 in E2.
  apply (f_equal (fun r => match r with Ok x => x | _ => d1 end)) in E1. cbv beta iota in E1.
  apply (f_equal (fun r => match r with Ok x => x | _ => d1 end)) in E2. cbv beta iota in E2.
  rewrite E1, E2. clear E1 E2. split; [congruence|]. split; [congruence|]. split; congruence.
Qed.

Lemma twice_as n :
  match get_as d1 n, get_as d2 n with
  | Ok y, Ok z => as_number y = as_number z /\ as_name y = as_name z
  | Err c, Err e => c = e
  | _, _ => False
  end.
Proof using All.
  destruct (written_get_as _ _ _ _ _ _ _ _ _ _ Call Prog Write1 Size1 Now1 Open1) as [A1 B1].
  destruct (written_get_as _ _ _ _ _ _ _ _ _ _ Call1 Prog1 Write2 Size2 Now2 Open2) as [A2 B2].
  unfold os1 in A2, B2. rewrite meaning_save in A2, B2.
  destruct (in_dec N.eq_dec n (map the_number (ases (meaning os)))) as [I|I].
  - apply in_map_iff in I as (a & <- & I).
    destruct (A1 a I) as (y & -> & Y1 & Y2). destruct (A2 a I) as (z & -> & Z1 & Z2). split; congruence.
  - rewrite (B1 n I), (B2 n I). reflexivity.
Qed.

Lemma twice_countries :
  snd (d_countries d1) = snd (d_countries d2) /\
  forall i, i < snd (d_countries d1) -> exists y z, fetch_country d1 i = Ok y /\ fetch_country d2 i = Ok z /\
    cc_str (c_code y) = cc_str (c_code z) /\ country_get_name y = country_get_name z /\
    (s_block0 x1 = s_block0 x2 -> country_get_continent_code y = country_get_continent_code z).
Proof using All.
  destruct (written_countries _ _ _ _ _ _ _ _ _ _ Call Prog Write1 Size1 Now1 Open1) as [A1 B1].
  destruct (written_countries _ _ _ _ _ _ _ _ _ _ Call1 Prog1 Write2 Size2 Now2 Open2) as [A2 B2].
  unfold os1 in A2, B2. rewrite meaning_save in A2, B2. split; [congruence|].
  intros i L. rewrite A1 in L. destruct (nth_error (countries (meaning os)) (N.to_nat i)) as [z|] eqn:E.
  2:{ apply nth_error_None in E. clear -L E. lia. }
  destruct (B1 _ _ E) as (y1 & F1 & C1 & T1 & N1). destruct (B2 _ _ E) as (y2 & F2 & C2 & T2 & N2).
  rewrite N2Nat.id in F1, F2. exists y1, y2. split; auto. split; auto. split; [congruence|]. split; [congruence|].
  intros Q. rewrite Q in T1. rewrite T1 in T2. apply (f_equal (fun r => match r with Some x => x | _ => None end)) in T2. exact T2.
Qed.

Lemma twice_lookup beyond fuel a y1 y2 r1 r2 : is_addr a -> (129 <= fuel)%nat ->
  lookup beyond d1 a fuel = Ok (Some y1, r1) -> lookup beyond d2 a fuel = Ok (Some y2, r2) ->
  get_country_code y1 = get_country_code y2 /\ n_asn y1 = n_asn y2 /\ n_flags y1 = n_flags y2.
Proof using All.
  intros A Hf E1 E2.
  destruct (lookup_sound _ _ _ _ _ _ _ _ _ _ Call Prog Write1 Size1 Now1 Open1 _ _ _ _ _ A Hf E1) as (_ & _ & z1 & M1 & G1 & G2 & G3).
  destruct (lookup_sound _ _ _ _ _ _ _ _ _ _ Call1 Prog1 Write2 Size2 Now2 Open2 _ _ _ _ _ A Hf E2) as (_ & _ & z2 & M2 & H1 & H2 & H3).
  pose proof (val_bound a A) as V.
  destruct (proj1 (same_attributes _ _ _ _ _ _ _ _ _ _ Call Prog Write1 Size1 Now1 Open1 (num a) (attributes z1) V)) as (z & M & At); [eauto|].
  pose proof (tree_before _ _ _ _ _ _ Call1 Prog1) as T1.
  rewrite (most_unique _ _ z z2 T1 V M M2) in At. unfold attributes in At.
  assert (C : n_cc z2 = n_cc z1) by (exact (f_equal (fun p => fst (fst p)) At)).
  assert (C2 : n_asn z2 = n_asn z1) by (exact (f_equal (fun p => snd (fst p)) At)).
  assert (C3 : n_flags z2 = n_flags z1) by (exact (f_equal snd At)).
  unfold get_country_code in *. split; [congruence|]. split; congruence.
Qed.

Lemma twice_none beyond fuel a : is_addr a -> (129 <= fuel)%nat ->
  (forall y, In y (stored (w_tree w)) -> ~ member y (num a)) ->
  lookup beyond d1 a fuel = Ok (None, 0%Z) /\ lookup beyond d2 a fuel = Ok (None, 0%Z).
Proof using All.
  intros A Hf H. split.
  - exact (lookup_nothing _ _ _ _ _ _ _ _ _ _ Call Prog Write1 Size1 Now1 Open1 beyond fuel a A Hf H).
  - apply (lookup_nothing _ _ _ _ _ _ _ _ _ _ Call1 Prog1 Write2 Size2 Now2 Open2 beyond fuel a A Hf).
    exact (none_before_after _ _ _ _ _ _ _ _ _ _ Call Prog Write1 Size1 Now1 Open1 (num a) (val_bound a A) H).
Qed.

Lemma twice_not_nested beyond fuel a n1 r1 n2 r2 : is_addr a -> (129 <= fuel)%nat ->
  (forall y z, In y (stored (w_tree w)) -> In z (stored (w_tree w)) -> ~ encloses y z) ->
  (is_ipv4 (num a) -> forall z, In z (stored (w_tree w)) -> member z (num a) -> n_family z = AF_INET) ->
  lookup beyond d1 a fuel = Ok (n1, r1) -> lookup beyond d2 a fuel = Ok (n2, r2) ->
  (n1 = None <-> n2 = None) /\ (n1 = None -> forall z, In z (stored (w_tree w)) -> ~ member z (num a)).
Proof using All.
  intros A Hf D F4 E1 E2. pose proof (val_bound a A) as V.
  pose proof (tree_before _ _ _ _ _ _ Call Prog) as T0. pose proof (is_cleaned _ _ _ _ _ _ _ _ _ _ Call Prog Write1 Size1 Now1 Open1) as Cl.
  destruct (existsb (fun z => (num (n_first z) <=? num a) && (num a <=? num (n_last z))) (stored (w_tree w))) eqn:Ex.
  - apply existsb_exists in Ex as (z & Iz & Mz). assert (M : member z (num a)) by (unfold member; lia). clear Mz.
    destruct (lookup_complete _ _ _ _ _ _ _ _ _ _ Call Prog Write1 Size1 Now1 Open1 beyond fuel a z A Hf D Iz M (fun I4 => F4 I4 z Iz M)) as [U|(y1 & Q1 & _)];
      [rewrite U in E1; discriminate|].
    assert (Most : most_specific (stored (w_tree w)) (num a) z).
    { split; auto. split; auto. intros y Iy My. destruct (Nat.le_gt_cases (n_prefix y) (n_prefix z)) as [|G]; auto. exfalso.
      pose proof (stored_before_wf _ _ _ _ _ _ Call Prog y Iy) as Wy. pose proof (stored_before_wf _ _ _ _ _ _ Call Prog z Iz) as Wz.
      apply (D z y Iz Iy). split; auto. intros u Mu. exact (nest z y (num a) Wz Wy M My ltac:(lia) u Mu). }
    destruct (proj1 (same_attributes _ _ _ _ _ _ _ _ _ _ Call Prog Write1 Size1 Now1 Open1 (num a) (attributes z) V)) as (z' & M' & At); [eauto|].
    destruct (cleanup_facts _ _ _ _ T0 Cl) as (T' & C' & Sm & _ & _ & V6 & Fl).
    specialize (Fl (proj2 (flat_iff _ T0) D)). pose proof (proj1 (flat_iff _ T') Fl) as D'.
    assert (F4' : is_ipv4 (num a) -> n_family z' = AF_INET).
    { intros I4. destruct (n_family z') eqn:F6; auto. exfalso.
      assert (Wz' : net_wf z') by (apply (stored_before_wf _ _ _ _ _ _ Call1 Prog1 z'); apply M').
      assert (Pz : pre (path z') (msb 128 (val a))) by (apply inb_path; auto; apply M').
      assert (Nz : nt (w_tree w1) (path z') = Some z') by (apply stored_path; auto; apply M').
      destruct (V6 (msb 128 (val a)) (path z') z' (msb_length _ _) Pz Nz F6) as (r & y & P1 & P2 & P3).
      destruct (wf_nt [] _ _ y (proj1 T0) P2) as [Wy Py]; cbn [app] in Py; subst r.
      assert (Iy : In y (stored (w_tree w))) by (apply stored_nt; eauto).
      assert (My : member y (num a)) by (apply inb_path in P1; auto).
      rewrite (F4 I4 y Iy My) in P3. discriminate. }
    destruct (lookup_complete _ _ _ _ _ _ _ _ _ _ Call1 Prog1 Write2 Size2 Now2 Open2 beyond fuel a z' A Hf D' (proj1 M') (proj1 (proj2 M')) F4') as [U|(y2 & Q2 & _)];
      [rewrite U in E2; discriminate|].
    rewrite Q1 in E1. rewrite Q2 in E2. clear - E1 E2. split; [split; congruence|congruence].
  - assert (H : forall y, In y (stored (w_tree w)) -> ~ member y (num a)).
    { intros y Iy [L1 L2]. assert (X : existsb (fun z => (num (n_first z) <=? num a) && (num a <=? num (n_last z))) (stored (w_tree w)) = true).
      { apply existsb_exists. exists y. split; auto. rewrite andb_true_iff. split; apply N.leb_le; auto. } congruence. }
    destruct (twice_none beyond fuel a A Hf H) as [Q1 Q2]. rewrite Q1 in E1. rewrite Q2 in E2.
    assert (n1 = None) as -> by congruence. assert (n2 = None) as -> by congruence. split; [tauto|auto].
Qed.

Lemma twice_given beyond fuel a n1 r1 n2 r2 : Forall no_save os -> is_addr a -> (129 <= fuel)%nat ->
  (forall y z, In y (given os) -> In z (given os) -> ~ encloses y z) ->
  (is_ipv4 (num a) -> forall z, In z (given os) -> member z (num a) -> n_family z = AF_INET) ->
  lookup beyond d1 a fuel = Ok (n1, r1) -> lookup beyond d2 a fuel = Ok (n2, r2) ->
  match n1, n2 with
  | Some y1, Some y2 => get_country_code y1 = get_country_code y2 /\ n_asn y1 = n_asn y2 /\ n_flags y1 = n_flags y2
  | None, None => forall z, In z (given os) -> ~ member z (num a)
  | _, _ => False
  end.
Proof using All.
  intros Ns A Hf D F4 E1 E2. pose proof (given_iff _ _ _ _ _ _ Call Ns Prog) as G.
  destruct (twice_not_nested beyond fuel a n1 r1 n2 r2 A Hf) as [X Y]; auto.
  - intros y z I1 I2. apply D; now apply G.
  - intros I4 z Iz. apply F4; auto. now apply G.
  - destruct n1 as [y1|], n2 as [y2|].
    + exact (twice_lookup beyond fuel a y1 y2 r1 r2 A Hf E1 E2).
    + destruct X as [_ X]. discriminate (X eq_refl).
    + destruct X as [X _]. discriminate (X eq_refl).
    + intros z Iz. apply Y; auto. now apply G.
Qed.
End Twice.
