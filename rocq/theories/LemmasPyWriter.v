(** The writer in Python *)
From Coq Require Import NArith ZArith List Bool Lia Permutation ZifyBool ZifyNat ZifyN.
From Verif Require Import Base LemmasBase ModelAddress LemmasAddress ModelCountryCode ModelNetwork LemmasNetwork SpecNetwork LemmasSpecNetwork ModelTree SpecTree LemmasPath LemmasTree LemmasTreeProps
  ModelStringPool SpecStringPool ModelObjects LemmasObjects ModelText LemmasTextAddr ModelFile ModelWriter ModelDatabase SpecWriter LemmasWriter LemmasWrite LemmasDbProps LemmasTwice
  ModelBindings SpecCommand LemmasBindings LemmasBindingsDb ModelPython SpecPython LemmasPython ModelPyWriter SpecPyWriter.
Import ListNotations.
Open Scope N_scope.

(** ** Texts *)
Lemma encoded_octets : forall c, character c -> Forall (fun x => x < 256) (encoded c).
Proof.
  intros c H. unfold character in H. unfold encoded. pose proof (N.mod_lt c 64 ltac:(lia)). pose proof (N.mod_lt (c / 64) 64 ltac:(lia)).
  pose proof (N.mod_lt (c / 4096) 64 ltac:(lia)).
  destruct (N.ltb_spec c 128); [repeat constructor; lia|]. destruct (N.ltb_spec c 2048).
  { assert (c / 64 < 32) by (apply N.div_lt_upper_bound; lia). repeat constructor; lia. }
  destruct (N.ltb_spec c 65536).
  { assert (c / 4096 < 16) by (apply N.div_lt_upper_bound; lia). repeat constructor; lia. }
  assert (c / 262144 < 5) by (apply N.div_lt_upper_bound; lia). repeat constructor; lia.
Qed.
Lemma plain_cstr : forall s, plain_text s -> is_cstr s.
Proof.
  intros s [(cs & F & ->) Z]. unfold is_cstr. assert (A : Forall (fun x => x < 256) (concat (map encoded cs))).
  { clear Z. induction F as [|c cs C _ IH]; cbn [map concat]; [constructor|]. apply Forall_app. split; [now apply encoded_octets|exact IH]. }
  rewrite Forall_forall in *. intros x I. specialize (A x I). assert (x <> 0) by (intros ->; contradiction). lia.
Qed.

Lemma letters_plain : forall s, letters s -> plain_text s.
Proof.
  intros s (a & b & -> & A & B & _). split.
  - exists [a; b]. split; [repeat constructor; unfold character; lia|]. cbn [map concat]. unfold encoded. replace (a <? 128) with true by lia. now replace (b <? 128) with true by lia.
  - intros [E|[E|[]]]; lia.
Qed.
Lemma letters_code : forall s, letters s <-> country_code (Some s) = Some s.
Proof.
  intros s. rewrite country_code_valid. split.
  - intros (a & b & -> & A & B & X). rewrite (proj2 (cc_valid_iff a b)) by auto. reflexivity.
  - destruct (cc_is_valid (Some s)) eqn:V; [|discriminate]. intros _. destruct (cc_valid_two _ V) as (a & b & K). exists a, b. exact K.
Qed.
Lemma no_code : forall s, ~ letters s -> country_code (Some s) = None.
Proof.
  intros s H. rewrite letters_code in H. rewrite country_code_valid in *. destruct (cc_is_valid (Some s)); [contradiction|reflexivity].
Qed.

(** ** Networks *)
Lemma new_from_string : forall s, (exists n, network_new_from_string (Some s) = Ok n /\ valid_network n /\ n_cc n = (0, 0) /\ n_asn n = 0 /\ n_flags n = 0) \/
  network_new_from_string (Some s) = Err 1.
Proof.
  intros s. unfold network_new_from_string. destruct (N.ltb_spec (2 ^ 31 - 1) (N.of_nat (length s))) as [B|B].
  - unfold address_parse. replace (2 ^ 31 - 1 <? N.of_nat (length s)) with true by lia. right. reflexivity.
  - rewrite address_parse_eq by exact B. destruct (split_slash (firstn 48 s)) as [t p].
    destruct (pton t) as [[a f]|] eqn:P; [|right; reflexivity]. cbn [negb]. destruct (pton_wf _ _ _ P) as [W _].
    assert (G : forall v, (exists n, network_new a v = Ok n /\ valid_network n /\ n_cc n = (0, 0) /\ n_asn n = 0 /\ n_flags n = 0) \/ network_new a v = Err 1).
    { intros v. pose proof (network_new_spec a v W) as Q. destruct (v <=? low_bits (val a)); [|right; exact Q].
      destruct Q as (n & E & Wn & _ & _ & _ & C1 & C2 & C3). left. exists n. split; [exact E|]. split; [now apply valid_net_wf|]. auto. }
    destruct p as [p|]; cbv zeta; [destruct (family_bit_length f <? _); [right; reflexivity|]|]; cbn [bind fst snd]; apply G.
Qed.

(** ** Attributes *)
Lemma lor_small32 : forall a b, a < 2 ^ 32 -> b < 2 ^ 32 -> N.lor a b < 2 ^ 32.
Proof.
  intros a b A B. destruct (N.eq_dec (N.lor a b) 0) as [-> |H]; [lia|]. apply N.log2_lt_pow2; [lia|]. rewrite N.log2_lor.
  apply N.max_lub_lt; [destruct (N.eq_dec a 0) as [-> |]; [cbn; lia|apply N.log2_lt_pow2; lia]|destruct (N.eq_dec b 0) as [-> |]; [cbn; lia|apply N.log2_lt_pow2; lia]].
Qed.
Definition attrs_of (n : network) : cc2 * N * N := (n_cc n, n_asn n, n_flags n).
Lemma assign_ok : forall a s, attributes_ok a -> set_ok s -> attributes_ok (assign a s).
Proof.
  intros [[c n] f] s (C & A & F) K. destruct s as [v|v|v]; destruct v as [s|z| |]; cbn [set_ok] in K; try contradiction; cbn [assign].
  - split; [exact C|]. split; [lia|exact F].
  - destruct K as (x & y & -> & X & Y & Z). split; [|split; [exact A|exact F]]. right. cbn [fst snd]. auto.
  - split; [exact C|]. split; [exact A|]. apply lor_small32; [exact F|]. pose proof (Z.mod_pos_bound z (2 ^ 32) ltac:(lia)). lia.
Qed.
Lemma set_one : forall n s, set_ok s -> exists n', match s with SetAsn v => Ok (py_set_asn n v) | SetCode v => py_set_country_code n v | SetFlag v => Ok (py_set_flag n v) end = Ok (Stored n') /\
  attrs_of n' = assign (attrs_of n) s.
Proof.
  intros n s K. destruct s as [v|v|v]; destruct v as [s|z| |]; cbn [set_ok] in K; try contradiction; cbn [assign attrs_of].
  - unfold py_set_asn, as_long. replace ((- 2 ^ 63 <=? z) && (z <? 2 ^ 63))%Z with true by lia. replace (z <=? 0)%Z with false by lia.
    replace (2 ^ 32 - 1 <? z)%Z with false by lia. eexists. split; reflexivity.
  - pose proof K as P. apply letters_plain in P. destruct K as (x & y & -> & X & Y & Z). unfold py_set_country_code. rewrite plain_nul by exact P. cbn [bind].
    unfold set_country_code. rewrite (proj2 (cc_valid_iff x y)) by auto. cbn [negb]. eexists. split; reflexivity.
  - unfold py_set_flag. rewrite int_ok by exact K. eexists. split; reflexivity.
Qed.
Lemma set_none : forall n s, set_bad s -> match s with SetAsn v => Ok (py_set_asn n v) | SetCode v => py_set_country_code n v | SetFlag v => Ok (py_set_flag n v) end = Ok (Refused (refusal s) n).
Proof.
  intros n s K. destruct s as [v|v|v]; cbn [set_bad refusal] in *.
  - f_equal. apply asn_refused. intros z E. specialize (K z E). lia.
  - destruct v as [s|z| |]; try contradiction. destruct K as (P & E & L). now apply code_refused.
  - destruct v as [s|z| |]; try reflexivity. specialize (K z eq_refl). unfold py_set_flag. cbn [as_int]. now replace ((- 2 ^ 31 <=? z) && (z <? 2 ^ 31))%Z with false by lia.
Qed.
Lemma sets_run : forall sets n e x, Forall set_plain sets -> py_sets n sets = Ok (e, x) ->
  (Forall set_ok sets /\ e = None /\ attrs_of x = fold_left assign sets (attrs_of n)) \/
  (exists a s b, sets = a ++ s :: b /\ Forall set_ok a /\ set_bad s /\ e = Some (Exc (refusal s)) /\ attrs_of x = fold_left assign a (attrs_of n)).
Proof.
  induction sets as [|s sets IH]; intros n e x F E; cbn [py_sets] in E.
  - left. split; [constructor|]. inversion E; subst. split; reflexivity.
  - inversion F as [|? ? [K|K] F']; subst.
    + destruct (set_one n s K) as (n' & Q & A). rewrite Q in E. cbn [bind] in E. destruct (IH n' e x F' E) as [(O & N & V)|(a & s' & b & -> & O & B & N & V)].
      * left. split; [constructor; assumption|]. split; [exact N|]. cbn [fold_left]. now rewrite <- A.
      * right. exists (s :: a), s', b. split; [reflexivity|]. split; [constructor; assumption|]. split; [exact B|]. split; [exact N|]. cbn [fold_left]. now rewrite <- A.
    + rewrite (set_none n s K) in E. cbn [bind] in E. right. exists [], s, sets. inversion E; subst. repeat split; auto.
Qed.
Lemma assigned_ok : forall sets a, Forall set_ok sets -> attributes_ok a -> attributes_ok (fold_left assign sets a).
Proof. induction sets as [|s sets IH]; intros a F A; [exact A|]. inversion F; subst. cbn [fold_left]. apply IH; [assumption|]. now apply assign_ok. Qed.
Lemma sets_to_run : forall sets n e x, n_cc n = (0, 0) -> n_asn n = 0 -> n_flags n = 0 -> Forall set_plain sets -> py_sets n sets = Ok (e, x) ->
  sets_to sets e (attrs_of x) /\ attributes_ok (attrs_of x).
Proof.
  intros sets n e x C A F P E. assert (Z : attrs_of n = ((0, 0), 0, 0)) by (unfold attrs_of; now rewrite C, A, F).
  assert (Z0 : attributes_ok ((0, 0), 0, 0)) by (split; [left; cbn; lia|split; lia]).
  destruct (sets_run sets n e x P E) as [(O & -> & V)|(a & s & b & -> & O & B & -> & V)]; rewrite V, Z.
  - split; [now apply sets_all|now apply assigned_ok].
  - split; [now apply sets_some|now apply assigned_ok].
Qed.

(** ** One statement *)
Section Script.
  Variable ctz0 : nat.
  Variable held : network -> bool.
  Variable key1 key2 : option evp.
  Notation program := (program ctz0 held key1 key2).
  Notation step := (step ctz0 held key1 key2).
  Lemma program_snoc : forall os w o w', program os = Ok w -> step w o = Ok w' -> program (os ++ [o]) = Ok w'.
  Proof.
    intros os w o w' P Q. unfold SpecWriter.program in *. destruct writer_new_inv as (w0 & E0 & _). rewrite E0 in *. cbn [bind] in *. exact (run_snoc _ _ _ _ o os w0 w w' P Q).
  Qed.
  Definition stands (os : list call) (w : writer) : Prop := Forall call_ok os /\ Forall no_save os /\ program os = Ok w.
  Lemma stands_snoc : forall os w o w', stands os w -> call_ok o -> no_save o -> step w o = Ok w' -> stands (os ++ [o]) w'.
  Proof.
    intros os w o w' (C & N & P) Co No Q. split; [apply Forall_app; auto|]. split; [apply Forall_app; auto|]. exact (program_snoc os w o w' P Q).
  Qed.
  Lemma tree_given : forall os w, stands os w -> tree_ok (w_tree w) /\ in_step (w_tree w) (given os).
  Proof.
    intros os w (C & N & P). destruct (program_tree _ _ _ _ os w C P) as [rs T].
    destruct (wrun_set ctz0 held (flat_map network_ops os) tree_new [] tree_new_ok) as (t & T' & K & I).
    - apply in_step_iff; [apply tree_new_ok|constructor|]. intros x. vm_compute. tauto.
    - now apply network_ops_ok.
    - clear -N. induction N as [|o os H _ IH]; cbn [flat_map]; [constructor|]. apply Forall_app. split; [|exact IH]. destruct o; cbn [network_ops no_save] in *; try contradiction; repeat constructor.
    - rewrite T in T'. replace (w_tree w) with t by congruence. split; assumption.
  Qed.
  Lemma text_step : forall f os w s, stands os w -> plain_text s ->
    f = set_vendor \/ f = set_description \/ f = set_license -> f w (Some s) = UB \/ exists w', f w (Some s) = Ok w'.
  Proof.
    intros f os w s (C & _ & P) T D. destruct (program_inv _ _ _ _ os w C P) as [ss V].
    destruct (pool_add_not_err (w_pool w) ss s (i_pool _ _ _ V) (plain_cstr s T)) as [U|(p & off & U)];
      destruct D as [-> | [-> | ->]]; unfold set_vendor, set_description, set_license; rewrite U; cbn [bind]; [left; reflexivity|left; reflexivity|left; reflexivity|right; eauto|right; eauto|right; eauto].
  Qed.
  Lemma statement : forall os w s e w', stands os w -> plain s -> py_step w s = Ok (e, w') -> exists o, effect os s e o /\ stands (os ++ o) w'.
  Proof.
    intros os w s e w' B P E. pose proof B as (C & N & Q). destruct (program_inv _ _ _ _ os w C Q) as [ss V].
    destruct s as [v|v|v|v|id v|v|id v|id v|v sets]; destruct v as [s|z| |]; cbn [plain] in P; try contradiction; cbn [py_step] in E.
    - unfold py_set_text in E. rewrite plain_nul in E by exact P. cbn [bind] in E. destruct (text_step set_vendor os w s B P) as [U|[w1 U]]; auto; rewrite U in E; [discriminate|].
      inversion E; subst. eexists. split; [apply e_vendor|]. apply (stands_snoc os w _ w' B); [now apply plain_cstr|exact Logic.I|]. cbn [step]. now rewrite U.
    - unfold py_set_text in E. rewrite plain_nul in E by exact P. cbn [bind] in E. destruct (text_step set_description os w s B P) as [U|[w1 U]]; auto; rewrite U in E; [discriminate|].
      inversion E; subst. eexists. split; [apply e_description|]. apply (stands_snoc os w _ w' B); [now apply plain_cstr|exact Logic.I|]. cbn [step]. now rewrite U.
    - unfold py_set_text in E. rewrite plain_nul in E by exact P. cbn [bind] in E. destruct (text_step set_license os w s B P) as [U|[w1 U]]; auto; rewrite U in E; [discriminate|].
      inversion E; subst. eexists. split; [apply e_license|]. apply (stands_snoc os w _ w' B); [now apply plain_cstr|exact Logic.I|]. cbn [step]. now rewrite U.
    - unfold py_add_as in E. cbn [as_int] in E. destruct ((- 2 ^ 31 <=? z) && (z <? 2 ^ 31))%Z eqn:R.
      + assert (L : (0 <= z < 2 ^ 31)%Z) by lia. rewrite Z.mod_small in E by lia.
        destruct (add_as_inv w _ ss (Z.to_N z) V ltac:(lia)) as (w1 & U & _). rewrite U in E. inversion E; subst.
        eexists. split; [now apply e_as|]. apply (stands_snoc os w _ w' B); [cbn [call_ok]; lia|exact Logic.I|]. cbn [step]. now rewrite U.
      + inversion E; subst. exists []. split; [apply e_as_large; lia|]. now rewrite app_nil_r.
    - unfold py_name_as in E. rewrite plain_nul in E by exact P. cbn [bind] in E. inversion E; subst. eexists. split; [apply e_name_as|].
      apply (stands_snoc os w _ _ B); [now apply plain_cstr|exact Logic.I|reflexivity].
    - unfold py_add_country in E. unfold py_arg in E. rewrite (plain_utf8 s P), (nul_absent s (proj2 P)) in E. unfold value in E; cbn [negb andb bind] in E.
      pose proof (add_country_inv w _ ss (Some s) V) as Y. destruct (cc_is_valid (Some s)) eqn:W.
      + assert (L : letters s) by (destruct (cc_valid_two _ W) as (a & b & K); exists a, b; exact K). rewrite (proj1 (letters_code s) L) in Y. destruct Y as (w1 & U & _).
        rewrite U in E. inversion E; subst. eexists. split; [now apply e_country|]. apply (stands_snoc os w _ w' B); [exact Logic.I|exact Logic.I|]. cbn [step]. now rewrite U.
      + assert (L : ~ letters s) by (intros (a & b & -> & K); rewrite (proj2 (cc_valid_iff a b)) in W by exact K; discriminate).
        rewrite (no_code s L) in Y. rewrite Y in E. cbn in E. inversion E; subst. exists []. split; [now apply e_no_country|]. now rewrite app_nil_r.
    - unfold py_name_country in E. rewrite plain_nul in E by exact P. cbn [bind] in E. destruct (name_country w id (Some s)) as [w1| | |] eqn:U; try discriminate.
      inversion E; subst. eexists. split; [apply e_name_country|]. apply (stands_snoc os w _ w' B); [now apply plain_cstr|exact Logic.I|]. cbn [step]. now rewrite U.
    - unfold py_set_continent_of in E. rewrite plain_nul in E by exact P. cbn [bind] in E. destruct (Nat.eqb_spec (length s) 2) as [L|L]; cbn [negb] in E.
      + destruct (continent_country w id (Some s)) as [w1| | |] eqn:U; try discriminate. inversion E; subst. eexists. split; [now apply e_continent|].
        apply (stands_snoc os w _ w' B); [now apply plain_cstr|exact Logic.I|]. cbn [step]. now rewrite U.
      + inversion E; subst. exists []. split; [now apply e_no_continent|]. now rewrite app_nil_r.
    - destruct P as [P F]. unfold py_add_net in E. unfold py_arg in E. rewrite (plain_utf8 s P), (nul_absent s (proj2 P)) in E. unfold value in E; cbn [negb andb bind] in E.
      destruct (new_from_string s) as [(n & M & Vn & Z1 & Z2 & Z3)|M]; rewrite M in E.
      2:{ cbn in E. inversion E; subst. exists []. split; [now apply e_no_net|]. now rewrite app_nil_r. }
      destruct (tree_given os w B) as [T [Ip Id]]. pose proof (tree_add_spec (w_tree w) n T (proj1 (valid_net_wf n) Vn)) as A.
      assert (H : forall x, In x (stored (w_tree w)) <-> In x (given os)) by (intros x; split; apply Permutation_in; [exact Ip|now apply Permutation_sym]).
      destruct (nt (w_tree w) (path n)) as [y|] eqn:Y.
      + rewrite A in E. cbn in E. inversion E; subst. exists []. split; [|rewrite app_nil_r; now destruct w].
        assert (I : In y (stored (w_tree w))) by (apply stored_nt; eauto). pose proof (proj1 (stored_path (w_tree w) y T) I) as Py.
        apply (e_net_twice os s n y sets M); [now apply H|]. apply same_block_iff; [now apply valid_net_wf|now apply (stored_wf (w_tree w))|].
        destruct T as [Wt _]. destruct (wf_nt [] (w_tree w) (path n) y Wt Y) as [_ X]. now rewrite X.
      + destruct A as (t' & A & T' & _). rewrite A in E. cbn [Z.eqb] in E. destruct (py_sets n sets) as [[e0 x]| | |] eqn:S0; try discriminate. cbn [bind] in E.
        inversion E; subst. destruct (sets_to_run sets n e x Z1 Z2 Z3 F S0) as [S1 S2].
        exists [AddNet n; SetNet n (attrs_of x)]. split.
        * apply e_net; [exact M| |exact S1]. intros y I. destruct (same_block n y) eqn:X; [|reflexivity]. exfalso. apply H in I.
          apply same_block_iff in X; [|now apply valid_net_wf|now apply (stored_wf (w_tree w))]. apply (stored_path (w_tree w) y T) in I. rewrite X in Y. congruence.
        * change [AddNet n; SetNet n (attrs_of x)] with ([AddNet n] ++ [SetNet n (attrs_of x)]). rewrite app_assoc.
          eapply stands_snoc; [eapply (stands_snoc os w (AddNet n) _ B); [exact Vn|exact Logic.I|reflexivity]|split; assumption|exact Logic.I|].
          cbn [step]. rewrite A. reflexivity.
  Qed.
  Lemma script_from : forall l os w es w', stands os w -> Forall plain l -> py_run w l = Ok (es, w') -> exists o, effects os l es o /\ stands (os ++ o) w'.
  Proof.
    induction l as [|s l IH]; intros os w es w' B P E; cbn [py_run] in E.
    - inversion E; subst. exists []. split; [constructor|]. now rewrite app_nil_r.
    - inversion P; subst. destruct (py_step w s) as [[e w1]| | |] eqn:E1; try discriminate. cbn [bind] in E.
      destruct (py_run w1 l) as [[es1 w2]| | |] eqn:E2; try discriminate. cbn [bind] in E. inversion E; subst.
      destruct (statement os w s e w1 B ltac:(assumption) E1) as (o & X & B1). destruct (IH (os ++ o) w1 es1 w' B1 ltac:(assumption) E2) as (o' & X' & B2).
      exists (o ++ o'). split; [now constructor|]. now rewrite app_assoc.
  Qed.
  Lemma script : forall l es w, Forall plain l -> py_script l = Ok (es, w) ->
    exists os, effects [] l es os /\ Forall call_ok os /\ Forall no_save os /\ program os = Ok w.
  Proof.
    intros l es w P E. unfold py_script in E. destruct writer_new_inv as (w0 & E0 & _). rewrite E0 in E. cbn [bind] in E.
    destruct (script_from l [] w0 es w) as (o & X & B); [|exact P|exact E|exists o; exact (conj X B)].
    split; [constructor|]. split; [constructor|]. unfold SpecWriter.program. rewrite E0. reflexivity.
  Qed.
End Script.

(** ** The texts *)
Lemma texts_from : forall os l es o, effects os l es o -> forall c,
  vendor (fold_left means o c) = fold_left (fun t s => match s with PyVendor v => text_of v t | _ => t end) l (vendor c) /\
  description (fold_left means o c) = fold_left (fun t s => match s with PyDescription v => text_of v t | _ => t end) l (description c) /\
  license (fold_left means o c) = fold_left (fun t s => match s with PyLicense v => text_of v t | _ => t end) l (license c).
Proof.
  intros os l es o H. induction H as [os|os s l e es o o' X H IH]; intros c; [cbn; auto|]. rewrite fold_left_app. cbn [fold_left].
  specialize (IH (fold_left means o c)). destruct IH as (A & B & D).
  rewrite A, B, D. clear A B D H.
  destruct X as [s|s|s|z L|z L|id s|s L|s L|id s|id s L|id s L|s n sets e a M U K|s n x sets M I U|s sets M]; cbn [fold_left text_of means]; auto.
  - destruct (country_code (Some s)); auto.
  - destruct s as [|x [|y [|q s]]]; auto.
Qed.
Lemma texts : forall l es os, effects [] l es os ->
  vendor (meaning os) = last_vendor l /\ description (meaning os) = last_description l /\ license (meaning os) = last_license l.
Proof. intros l es os H. exact (texts_from [] l es os H nothing). Qed.
Lemma plain_empty : plain_text [].
Proof. split; [exists []; split; [constructor|reflexivity]|intros []]. Qed.
Lemma last_plain : forall l, Forall plain l -> plain_text (last_vendor l) /\ plain_text (last_description l) /\ plain_text (last_license l).
Proof.
  intros l F. unfold last_vendor, last_description, last_license. generalize plain_empty plain_empty plain_empty.
  generalize (@nil N) at 1 4. generalize (@nil N) at 2 4. generalize (@nil N) as c.
  induction F as [|s l P _ IH]; intros c b a A B C; cbn [fold_left]; [auto|].
  apply IH; destruct s as [v|v|v|v|id v|v|id v|id v|v sets]; destruct v as [s|z| |]; cbn [plain] in P; try contradiction; cbn [text_of]; assumption.
Qed.
Lemma ases_from : forall os l es o, effects os l es o -> forall n, In (AddAs n) o <-> added_as l n.
Proof.
  intros os l es o H n. unfold added_as. induction H as [os|os s l e es o o' X H IH]; [cbn [In]; tauto|]. rewrite in_app_iff, IH. cbn [In]. clear IH H.
  destruct X as [s|s|s|z L|z L|id s|s L|s L|id s|id s L|id s L|s m sets e a M U K|s m x sets M I U|s sets M]; cbn [In];
    try (split; [intros [[E|[]]|[A B]]; [discriminate E|auto]|intros [A [E|B]]; [discriminate E|auto]]; fail);
    try (split; [intros [[]|[A B]]; auto|intros [A [E|B]]; [discriminate E|auto]]; fail).
  - split.
    + intros [[E|[]]|[A B]]; [|auto]. injection E as <-. split; [lia|]. left. now rewrite Z2N.id by lia.
    + intros [A [E|B]]; [|auto]. injection E as ->. left. left. now rewrite N2Z.id.
  - split; [intros [[]|[A B]]; auto|]. intros [A [E|B]]; [|auto]. injection E as ->. lia.
  - split; [intros [[E|[E|[]]]|[A B]]; [discriminate E|discriminate E|auto]|intros [A [E|B]]; [discriminate E|auto]].
Qed.

(** ** The database *)
Lemma db_text : forall get d s, get d = Ok (Some s) -> plain_text s -> py_db_text get d = value (Some s).
Proof. intros get d s G P. unfold py_db_text. rewrite G. cbn [bind]. unfold py_text. rewrite (plain_utf8 s P). reflexivity. Qed.
Section Read.
  Variable ctz0 : nat.
  Variable held : network -> bool.
  Variable key1 key2 : option evp.
  Lemma write_ok : forall x v w w' f, py_write ctz0 held key1 key2 true x v w = Ok (None, w', Some f) ->
    exists x', s_now x' = s_now x /\ write_to ctz0 held key1 key2 w x' = Ok (0%Z, w', f).
  Proof.
    intros x v w w' f E. unfold py_write in E. destruct (as_int v) as [z|e]; [|discriminate]. cbn [negb] in E.
    eexists. split; [|]. 2:{ destruct (write_to _ _ _ _ _ _) as [[[r w1] f1]| | |] eqn:W in E; try discriminate. cbn [bind] in E.
      destruct (Z.eqb_spec r 0) as [-> |]; [|discriminate]. inversion E; subst. exact W. }
    reflexivity.
  Qed.
  Lemma read_back : forall l es w x v w' f, Forall plain l -> py_script l = Ok (es, w) ->
    py_write ctz0 held key1 key2 true x v w = Ok (None, w', Some f) -> N.of_nat (length f) < 2 ^ 32 -> s_now x < 2 ^ 63 ->
    exists os d, effects [] l es os /\ db_open f = Ok d /\
      py_db_text get_vendor d = value (Some (last_vendor l)) /\ py_db_text get_description d = value (Some (last_description l)) /\
      py_db_text get_license d = value (Some (last_license l)) /\ py_created_at d = Z.of_N (s_now x) /\
      (forall n, added_as l n -> exists a r, In a (ases (meaning os)) /\ the_number a = n /\ py_get_as d n = value (Some r) /\
         as_number r = n /\ as_name r = Some (or_empty (the_name a))) /\
      (forall n, n < 2 ^ 31 -> ~ added_as l n -> py_get_as d n = value None) /\
      (exists x', program ctz0 held key1 key2 os = Ok w /\ write_to ctz0 held key1 key2 w x' = Ok (0%Z, w', f) /\ s_now x' = s_now x).
  Proof.
    intros l es w x v w' f P E W Sz Now. destruct (script ctz0 held key1 key2 l es w P E) as (os & X & C & N & Q).
    destruct (write_ok x v w w' f W) as (x' & T & W'). assert (Now' : s_now x' < 2 ^ 64) by lia.
    destruct (written_metadata _ _ _ _ os w x' w' f C Q W' Sz Now') as (d & D & V1 & V2 & V3 & V4 & _).
    exists os, d. split; [exact X|]. split; [exact D|]. destruct (texts l es os X) as (T1 & T2 & T3). destruct (last_plain l P) as (P1 & P2 & P3).
    split; [apply db_text; [now rewrite <- T1|exact P1]|]. split; [apply db_text; [now rewrite <- T2|exact P2]|]. split; [apply db_text; [now rewrite <- T3|exact P3]|].
    split. { unfold py_created_at. rewrite V4, T. cbv zeta. now replace (Z.of_N (s_now x) <? 2 ^ 63)%Z with true by lia. }
    destruct (bindings_as _ _ _ _ os w x' w' f d C Q W' Sz Now' D) as [A1 A2].
    split; [|split; [|exists x'; auto]].
    - intros n K. pose proof K as [L _]. apply (ases_from [] l es os X) in K. apply (proj2 (meaning_numbers os n)) in K. apply in_map_iff in K as (a & <- & I).
      destruct (A1 a I) as (r & _ & _ & R1 & R2 & R3). exists a, r. repeat split; auto.
    - intros n L K. apply (A2 n); [|exact L]. intros I. apply (meaning_numbers os n) in I. apply K. now apply (ases_from [] l es os X).
  Qed.
End Read.

(** ** What fails *)
Lemma write_failed : forall ctz0 held key1 key2 x w z, (- 2 ^ 31 <= z < 2 ^ 31)%Z -> z <> 0%Z -> z <> 1%Z ->
  py_write ctz0 held key1 key2 true x (PyInt z) w = Ok (Some (Exc OSError), w, Some []).
Proof.
  intros ctz0 held key1 key2 x w z L Z0 Z1. unfold py_write. rewrite int_ok by exact L. cbn [negb]. unfold write_to, writer_write. cbn [s_version s_old].
  assert (E : Z.to_N (z mod 2 ^ 32) <> 0 /\ Z.to_N (z mod 2 ^ 32) <> 1).
  { pose proof (Z.mod_pos_bound z (2 ^ 32) ltac:(lia)). destruct (Z.lt_ge_cases z 0).
    - rewrite <- (Z.mod_unique z (2 ^ 32) (-1) (z + 2 ^ 32)) by lia. lia.
    - rewrite Z.mod_small by lia. lia. }
  destruct E as [A B]. replace (Z.to_N (z mod 2 ^ 32) =? 0) with false by lia. replace (Z.to_N (z mod 2 ^ 32) =? VERSION_1) with false by (unfold VERSION_1; lia). reflexivity.
Qed.
Lemma write_fails : forall ctz0 held key1 key2 x w z, (- 2 ^ 31 <= z < 2 ^ 31)%Z ->
  py_write ctz0 held key1 key2 false x (PyInt z) w = Ok (Some (Exc OSError), w, None) /\
  (z <> 0%Z -> z <> 1%Z -> exists f, py_write ctz0 held key1 key2 true x (PyInt z) w = Ok (Some (Exc OSError), w, f)).
Proof.
  intros ctz0 held key1 key2 x w z L. split; [unfold py_write; now rewrite int_ok by exact L|]. intros Z0 Z1. exists (Some []). now apply write_failed.
Qed.
Lemma text_needed : forall w v, (forall s, v <> PyStr s) -> py_step w (PyVendor v) = UB /\ py_step w (PyDescription v) = UB /\ py_step w (PyLicense v) = UB.
Proof. intros w v A. destruct v as [s|z| |]; [destruct (A s eq_refl)| | |]; repeat split; reflexivity. Qed.
Lemma invalid_step : forall w s, plain_text s ->
  (network_new_from_string (Some s) = Err 1 -> forall sets, py_step w (PyAddNet (PyStr s) sets) = Ok (Some (Exc SystemError), w)) /\
  (~ letters s -> py_step w (PyAddCountry (PyStr s)) = Ok (Some (Exc SystemError), w)).
Proof.
  intros w s P. cbn [py_step]. unfold py_add_net, py_add_country, py_arg. rewrite (plain_utf8 s P), (nul_absent s (proj2 P)). unfold value. cbn [negb andb bind]. split.
  - intros E sets. rewrite E. reflexivity.
  - intros L. unfold writer_add_country, country_new. destruct (cc_is_valid (Some s)) eqn:V; [|reflexivity]. destruct L. destruct (cc_valid_two _ V) as (a & b & K). exists a, b. exact K.
Qed.
