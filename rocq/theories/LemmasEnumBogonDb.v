(** Bogon enumeration of a written database *)
From Coq Require Import NArith ZArith List Bool Arith Lia ZifyBool ZifyNat ZifyN Sorting.Sorted.
From Verif Require Import Base LemmasBase ModelAddress LemmasAddress ModelCountryCode ModelNetwork LemmasNetwork ModelNetworkList
  LemmasNetworkList LemmasExclude ModelTree LemmasPath LemmasTree LemmasTreeProps LemmasSpecNetwork ModelStringPool ModelObjects
  ModelFile ModelWriter ModelDatabase SpecNetwork SpecStringPool SpecObjects SpecNetworkList SpecTree SpecWriter LemmasExcludeProps
  LemmasListProps LemmasObjects LemmasFile LemmasWriter LemmasWrite LemmasOpen LemmasDb LemmasDbProps LemmasNodes LemmasLookup LemmasLookupDb
  LemmasTwice ModelEnum SpecEnum LemmasEnumAs LemmasEnum LemmasEnumTree LemmasEnumDb LemmasEnumSafe LemmasEnumFlat LemmasEnumFlatDb LemmasEnumBogon.
Import ListNotations.
Open Scope N_scope.
Local Opaque cleanup.

Lemma sorted_ordered l : sorted l -> ordered l.
Proof.
  intros [_ S0] A n B m -> I. induction A as [|a A IH]; cbn [app] in S0; inversion S0 as [|? ? S1 F]; subst; auto.
  rewrite Forall_forall in F. exact (F m I).
Qed.

Section Rel.
Variables (l : list setting) (e : enum) (R : list network).
Hypothesis Kw : forall y, In y R -> keep e y = true <-> wanted l y.
Let Q := List.filter (rel e) R.

Lemma in_rel y : In y Q <-> In y R /\ wanted l y /\ get_country_code y <> [].
Proof.
  unfold Q. rewrite filter_In. unfold rel. rewrite andb_true_iff, negb_true_iff, Nat.eqb_neq. split.
  - intros (I & K1 & C). split; auto. split; [now apply Kw|]. intros X. apply C. now rewrite X.
  - intros (I & K1 & C). split; auto. split; [now apply Kw|]. destruct (get_country_code y); [now elim C|]. cbn. lia.
Qed.
Lemma assigned_asg f v : assigned l R f v <-> asg Q f v.
Proof.
  unfold assigned, asg. split.
  - intros (n & I & F & W & C & M). exists n. rewrite in_rel. auto.
  - intros (n & I & F & M). apply in_rel in I as (I & W & C). exists n. auto 6.
Qed.
Lemma gap_is_gap f a b : is_gap Q f (zero f) a b <-> gap l R f a b.
Proof.
  unfold is_gap, gap. change (first_address f) with (zero f). change (last_address f) with (final f).
  assert (A : (forall v, a <= v <= b -> ~ asg Q f v) <-> (forall v, a <= v <= b -> ~ assigned l R f v)).
  { split; intros H v V X; apply (H v V); now apply assigned_asg. }
  rewrite !assigned_asg, A. reflexivity.
Qed.
Lemma act_assigned f : (forall y, In y R -> net_wf y) -> act Q f (zero f) <-> exists u, assigned l R f u.
Proof.
  intros W. split.
  - intros [H|(n & I & F)]; [now elim H|]. exists (lo n). apply assigned_asg. exists n. split; auto. split; auto.
    apply inb_lo, W. apply in_rel in I. tauto.
  - intros (u & A). apply assigned_asg in A as (n & I & F & _). right. eauto.
Qed.

Lemma inv_start f : (forall y, In y R -> net_wf y) ->
  (forall y, In y R -> wanted l y -> get_country_code y <> [] -> n_family y = AF_INET6 -> 2 ^ 49 <= num (n_first y)) ->
  ~ assigned l R f (first_address f) -> ~ assigned l R f (last_address f) -> (forall a, ~ gap l R f a a) ->
  ~ attached l R ->
  inv Q f (zero f).
Proof.
  intros W Six A0 A1 G H. constructor.
  - now left.
  - intros n I F. right. rewrite <- F. apply family_zero, W. apply in_rel in I. tauto.
  - intros n I F. pose proof I as I'. apply in_rel in I' as (In' & Wn & C). split; [|split].
    + intros ->. now apply Six.
    + intros E. apply A0. apply assigned_asg. exists n. split; auto. split; auto. change (first_address f) with (zero f). rewrite <- E. apply inb_lo; auto.
    + intros E. apply A1. apply assigned_asg. exists n. split; auto. split; auto. change (last_address f) with (final f). rewrite <- E. apply inb_hi; auto.
  - intros _ v V Nv Le Ri. apply (G v). apply gap_is_gap. split; [lia|]. split; [|auto]. intros u U. now replace u with v by lia.
  - intros n I F E Gn. pose proof I as I'. apply in_rel in I' as (In' & Wn & C). split.
    + intros X. apply A0. apply assigned_asg. exists n. split; auto. split; auto. change (first_address f) with (zero f). rewrite <- X. apply inb_lo; auto.
    + intros m Im Fm Em. pose proof Im as Im'. apply in_rel in Im' as (Im' & Wm & Cm).
      destruct (existsb (fun u => family_eqb (n_family u) f && (lo u <? lo n) && (lo n <=? hi u)) Q) eqn:X.
      * apply existsb_exists in X as (u & Iu & X). rewrite !andb_true_iff in X. destruct X as [[X1 X2] X3]. exists u. split; auto.
        split; [now apply LemmasDedup.family_eqb_eq|]. lia.
      * exfalso. apply H. exists n. split; auto. split; auto. split; auto. split; [exact E|].
        change (num (n_first n)) with (lo n). split; [lia|]. split.
        { apply assigned_asg. exists m. split; auto. split; [congruence|]. replace (lo n - 1) with (hi m) by lia. apply inb_hi; auto. }
        intros (u & Iu & Fu & Wu & Cu & M1 & M2).
        assert (Y : existsb (fun u => family_eqb (n_family u) f && (lo u <? lo n) && (lo n <=? hi u)) Q = true); [|congruence].
        apply existsb_exists. exists u. split; [apply in_rel; auto|]. rewrite !andb_true_iff. split; [split|].
        -- apply LemmasDedup.family_eqb_eq. congruence.
        -- apply N.ltb_lt. destruct M1 as [M1 _]. change (num (n_first u)) with (lo u) in M1. lia.
        -- apply N.leb_le. apply M2.
Qed.
End Rel.

Lemma wanted_read l y z : attributes y = attributes z -> n_family y = n_family z -> 
  (wanted l (as_read y) <-> wanted l (as_read z)) /\ get_country_code (as_read y) = get_country_code (as_read z).
Proof.
  intros A F. unfold attributes in A. injection A as A1 A2 A3.
  assert (R : attrs (as_read y) = attrs (as_read z)) by (rewrite !read_attrs; unfold get_country_code; now rewrite A1, A2, A3).
  split; [now apply wanted_attrs|]. unfold attrs in R. now injection R as R _ _.
Qed.

Section Props.
Variables (ctz0 : nat) (held : network -> bool) (key1 key2 : option evp).
Variables (os : list call) (w : writer) (x : save) (w' : writer) (f : list N) (d : db).
Hypothesis Call : Forall call_ok os.
Hypothesis Prog : program ctz0 held key1 key2 os = Ok w.
Hypothesis Write : write_to ctz0 held key1 key2 w x = Ok (0%Z, w', f).
Hypothesis Size : N.of_nat (length f) < 2 ^ 32.
Hypothesis Now : s_now x < 2 ^ 64.
Hypothesis Open : db_open f = Ok d.

Lemma bogons beyond old fl l : Forall setting_ok l ->
  (forall y, In y (stored (w_tree w')) -> ~ straddles y) ->
  (forall y, In y (stored (w_tree w')) -> n_prefix y = 128%nat -> ~ crowded (stored (w_tree w')) (num (n_first y))) ->
  let R := map as_read (stored (w_tree w')) in
  (forall y, In y R -> wanted l y -> get_country_code y <> [] -> n_family y = AF_INET6 -> 2 ^ 49 <= num (n_first y)) ->
  (forall fam, ~ assigned l R fam (first_address fam) /\ ~ assigned l R fam (last_address fam) /\ forall a, ~ gap l R fam a a) ->
  ~ attached l R ->
  exists L f0, (forall fuel, (f0 <= fuel)%nat -> enumerates (next_network beyond d fuel old) (configured Bogons fl l) L) /\
    reports l R L.
Proof.
  intros Sok St Cr R Six Ends Hosts.
  destruct (whole_tree _ _ _ _ _ _ _ _ _ _ Call Prog Write Size Now Open beyond fl Bogons l St Cr) as (n & e' & S0 & En & _).
  destruct (tree_after _ _ _ _ _ _ _ _ _ _ Call Prog Write Size Now Open) as [T C].
  destruct (configured_state Bogons fl l) as (M & _ & _ & _ & _ & _ & _ & Es & Eb & E6 & E4). cbv zeta in *.
  set (e := configured Bogons fl l) in *. fold R in S0.
  assert (Sr : sorted R).
  { constructor.
    - apply Forall_forall. intros z I. apply in_map_iff in I as (y & <- & I). apply read_wf. exact (stored_wf _ _ T I).
    - pose proof (stored_ascending _ [] (proj1 T)) as A. unfold R. clear -A. unfold SpecNetworkList.ascending in *.
      induction A as [|a m A IH F]; [constructor|]. cbn [map]. constructor; auto. apply Forall_forall. intros b I.
      apply in_map_iff in I as (c & <- & I). rewrite Forall_forall in F. exact (F c I). }
  assert (Wr : forall y, In y R -> net_wf y) by (apply Forall_forall; apply Sr).
  assert (P : state beyond d e (addr_reset AF_INET6) (addr_reset AF_INET) e [] R).
  { split. { rewrite <- E6, <- E4. destruct e. do 5 eexists. reflexivity. }
    rewrite Es, Eb. split; [apply list_new_repr|]. split; [apply list_new_repr|]. eauto. }
  assert (Kw : forall y, In y R -> keep e y = true <-> wanted l y).
  { intros y0 I0. apply in_map_iff in I0 as (y & <- & I). destruct (match_wanted Bogons fl l (as_read y) Sok (as_read_cc y (stored_wf _ _ T I))) as (b & Hb & B).
    assert (Hb' : match_network e (as_read y) = Ok b) by exact Hb.
    unfold keep. rewrite Hb'. exact B. }
  assert (Or : ordered (List.filter (rel e) R)).
  { apply sorted_ordered. destruct Sr as [S1 S2]. constructor.
    - apply Forall_forall. intros y I. apply filter_In in I as [I _]. auto.
    - clear -S2. induction S2 as [|a m A IH F]; [constructor|]. cbn [List.filter]. destruct (rel e a); auto. constructor; auto.
      apply Forall_forall. intros b I. apply filter_In in I as [I _]. rewrite Forall_forall in F. auto. }
  assert (Rd : ready beyond d e R (addr_reset AF_INET6) (addr_reset AF_INET) e).
  { split; [|auto]. intros g. assert (E : gap_of (addr_reset AF_INET6) (addr_reset AF_INET) g = addr_reset g) by now destruct g.
    rewrite E. destruct (reset_wf g) as [Wg Vg]. split; auto. rewrite Vg. destruct (Ends g) as (A0 & A1 & G).
    apply (inv_start l e R Kw); auto. }
  destruct (after_chunk beyond d old e M _ _ R [] e P) as (e3 & P3 & Hc).
  destruct (bogon_run beyond d old e M (length R) R (addr_reset AF_INET6) (addr_reset AF_INET) e3 (le_n _)) as (L & f0 & [Gd Fo] & G).
  { destruct Rd as (R1 & R2 & R3 & _). split; auto. }
  exists L, (Nat.max f0 (S (length R))). split.
  { intros fuel Lf. apply (Hc fuel (length R) L); [lia|]. apply G. lia. }
  rewrite Forall_forall in Gd.
  assert (Fo' : forall g, found (List.filter (rel e) R) g (zero g) L).
  { intros g. specialize (Fo g). assert (E : gap_of (addr_reset AF_INET6) (addr_reset AF_INET) g = addr_reset g) by now destruct g.
    rewrite E, (proj2 (reset_wf g)) in Fo. exact Fo. }
  split; [|split; [|split; [|split]]].
  - apply Forall_forall. intros z I. apply valid_net_wf. now apply Gd.
  - intros z I. destruct (Gd z I) as (_ & C1 & C2 & C3). unfold get_country_code. rewrite C1. auto.
  - intros g v u Au Vr Nv. destruct (f_all _ _ _ _ (Fo' g)) with (v := v) as (z & Iz & Fz & Bz); auto.
    + apply (act_assigned l e R Kw); eauto.
    + intros X. apply Nv. now apply (assigned_asg l e R Kw).
    + exists z. auto.
  - intros z I. destruct (f_some _ _ _ _ (Fo' (n_family z)) z I eq_refl) as (A & v & Bv & _ & Nv).
    apply (act_assigned l e R Kw) in A as (u & Au); auto. exists v, u. split; [exact Bv|]. split; auto. intros X. apply Nv. now apply (assigned_asg l e R Kw).
  - intros g Gg z v I F Mz X. destruct (f_exact _ _ _ _ (Fo' g)) with (x := z) (v := v) as [_ Nv]; auto.
    + intros a b Gab. apply (gap_is_gap l e R Kw) in Gab. destruct (Gg a b Gab) as (m & Vm & E1 & E2). exists m. split; [now apply valid_net_wf|auto].
    + apply Nv. now apply (assigned_asg l e R Kw).
Qed.

(** ** in terms of the networks that were added *)
Hypothesis NoSave : Forall no_save os.

Lemma clean_facts : 
  (forall y, In y (stored (w_tree w')) -> n_prefix y = 128%nat -> In y (given os)) /\
  (forall y, In y (given os) -> exists z, In z (stored (w_tree w')) /\ attributes z = attributes y /\ forall v, member y v -> member z v) /\
  (forall z v, In z (stored (w_tree w')) -> member z v -> exists y, In y (given os) /\ attributes y = attributes z /\ member y v).
Proof.
  destruct (program_tree _ _ _ _ os w Call Prog) as [rs R].
  destruct (cleanup_stored ctz0 held _ _ _ _ (network_ops_ok os Call) R (is_cleaned _ _ _ _ _ _ _ _ _ _ Call Prog Write Size Now Open)) as (C1 & C2 & C3).
  pose proof (given_iff _ _ _ _ _ _ Call NoSave Prog) as G. split; [|split].
  - intros y I P. apply G. auto.
  - intros y I. apply C2. now apply G.
  - intros z v I M. destruct (C3 z v I M) as (y & Iy & A). exists y. split; auto. now apply G.
Qed.

Section Ordinary.
Hypothesis Ord : ordinary (given os).
Variable l : list setting.
Let R := map as_read (stored (w_tree w')).
Let G := map as_read (given os).

Lemma given_wf y : In y (given os) -> net_wf y.
Proof. intros I. apply (given_iff _ _ _ _ _ _ Call NoSave Prog) in I. exact (stored_before_wf _ _ _ _ _ _ Call Prog y I). Qed.

Lemma read_first y : n_first (as_read y) = n_first y /\ n_last (as_read y) = n_last y /\ n_family (as_read y) = n_family y.
Proof. auto. Qed.

Lemma assigned_given g v : assigned l R g v <-> assigned l G g v.
Proof.
  destruct clean_facts as (C1 & C2 & C3). split.
  - intros (n0 & I0 & F & Wn & C & M). apply in_map_iff in I0 as (n & <- & I).
    destruct (C3 n v I M) as (y & Iy & A & My).
    assert (Fy : n_family n = n_family y) by exact (ordinary_family _ _ _ _ _ _ _ _ _ _ Call Prog Write Size Now Open NoSave Ord n y v I Iy M My).
    destruct (wanted_read l y n A (eq_sym Fy)) as [W1 W2]. exists (as_read y). split; [now apply in_map|]. split; [now rewrite <- F; symmetry|].
    split; [now apply W1|]. split; [now rewrite W2|]. exact My.
  - intros (n0 & I0 & F & Wn & C & M). apply in_map_iff in I0 as (y & <- & I).
    destruct (C2 y I) as (n & In_ & A & Mn). specialize (Mn v M).
    assert (Fy : n_family n = n_family y) by exact (ordinary_family _ _ _ _ _ _ _ _ _ _ Call Prog Write Size Now Open NoSave Ord n y v In_ I Mn M).
    destruct (wanted_read l n y A Fy) as [W1 W2]. exists (as_read n). split; [now apply in_map|]. split; [now rewrite <- F|].
    split; [now apply W1|]. split; [now rewrite W2|]. exact Mn.
Qed.

Lemma gap_given g a b : gap l R g a b <-> gap l G g a b.
Proof.
  unfold gap. rewrite !assigned_given.
  assert (A : (forall v, a <= v <= b -> ~ assigned l R g v) <-> (forall v, a <= v <= b -> ~ assigned l G g v)).
  { split; intros H v V X; apply (H v V); now apply assigned_given. }
  rewrite A. reflexivity.
Qed.

Lemma attached_given : attached l R -> attached l G.
Proof.
  destruct clean_facts as (C1 & C2 & C3). intros (z0 & I0 & Wz & C & E & P & A & N). apply in_map_iff in I0 as (z & <- & I).
  pose proof (stored_after_wf _ _ _ _ _ _ _ _ _ _ Call Prog Write Size Now Open z I) as W.
  assert (Iz : In z (given os)).
  { apply C1; auto. change (lo z = hi z) in E. pose proof (w_prefix z W) as Pz. pose proof (hi_lo z W) as Hl. destruct (Nat.eq_dec (n_prefix z) 128) as [|Ne]; auto. exfalso.
    assert (B : 2 ^ 1 <= blk (n_prefix z)) by (unfold blk; apply N.pow_le_mono_r; lia). lia. }
  exists (as_read z). split; [now apply in_map|]. split; auto. split; auto. split; auto. split; auto. split; [now apply assigned_given|].
  intros (u0 & Iu & Fu & Wu & Cu & M1 & M2). apply N. apply in_map_iff in Iu as (u & <- & Iu).
  destruct (C2 u Iu) as (y & Iy & Ay & My).
  assert (Fy : n_family y = n_family u) by exact (ordinary_family _ _ _ _ _ _ _ _ _ _ Call Prog Write Size Now Open NoSave Ord y u _ Iy Iu (My _ M1) M1).
  destruct (wanted_read l y u Ay Fy) as [W1 W2]. exists (as_read y). split; [now apply in_map|]. split; [now rewrite <- Fu|].
  split; [now apply W1|]. split; [now rewrite W2|]. split; [exact (My _ M1)|exact (My _ M2)].
Qed.

Lemma reports_given L : reports l R L -> reports l G L.
Proof.
  intros (R1 & R2 & R3 & R4 & R5). split; auto. split; auto. split; [|split].
  - intros g v u A V N. apply (R3 g v u); auto; rewrite assigned_given; auto.
  - intros z I. destruct (R4 z I) as (v & u & M & N & A). exists v, u. rewrite <- !assigned_given. auto.
  - intros g Gg z v I F M A. apply (R5 g) with z v; auto; [|now apply assigned_given].
    intros a b Gab. apply Gg. now apply gap_given.
Qed.

Lemma bogons_meaning beyond old fl : Forall setting_ok l ->
  (forall fam, ~ assigned l G fam (first_address fam) /\ ~ assigned l G fam (last_address fam) /\ forall a, ~ gap l G fam a a) ->
  ~ attached l G ->
  exists L f0, (forall fuel, (f0 <= fuel)%nat -> enumerates (next_network beyond d fuel old) (configured Bogons fl l) L) /\
    reports l G L.
Proof.
  intros Sok Ends Hosts. destruct (enumerable_stored _ _ _ _ _ _ _ _ _ _ Call Prog Write Size Now Open NoSave (ordinary_enumerable _ _ _ _ _ _ _ _ Call Prog Size Now NoSave Ord)) as [St Cr].
  destruct (bogons beyond old fl l Sok St Cr) as (L & f0 & E & Rp).
  - intros y0 I0 Wy Cy F. apply in_map_iff in I0 as (y & <- & I). change (n_family y = AF_INET6) in F. change (2 ^ 49 <= num (n_first y)).
    pose proof (stored_after_wf _ _ _ _ _ _ _ _ _ _ Call Prog Write Size Now Open y I) as W. pose proof (inb_lo y W) as My. change (lo y) with (num (n_first y)) in My.
    apply N.le_ngt. intros V. pose proof (ordinary_v6 _ _ _ _ _ _ _ _ _ _ Call Prog Write Size Now Open NoSave Ord y _ I F My V) as P.
    destruct (Ends AF_INET6) as (A0 & _). apply A0. apply assigned_given. exists (as_read y). split; [now apply in_map|]. split; [exact F|]. split; [exact Wy|]. split; [exact Cy|].
    cbn [first_address]. assert (E : lo y = 0).
    { rewrite (lo_div y W). change (num (n_first y)) with (lo y) in V. rewrite N.div_small; [reflexivity|].
      eapply N.lt_le_trans; [exact V|]. unfold blk. apply N.pow_le_mono_r; lia. }
    change (inb (as_read y) 0). rewrite <- E. exact My.
  - intros fam. destruct (Ends fam) as (A0 & A1 & G0). split; [intros X; now apply A0, assigned_given|]. split; [intros X; now apply A1, assigned_given|].
    intros a Ga. apply (G0 a). now apply gap_given.
  - intros A. apply Hosts. now apply attached_given.
  - exists L, f0. split; auto. now apply reports_given.
Qed.
End Ordinary.
End Props.
