(** Proofs about overrides *)
From Coq Require Import String.
From Coq Require Import NArith ZArith List Bool Permutation Lia ZifyBool ZifyNat ZifyN.
From Verif Require Import Base ModelCountryCode ModelStringPool SpecText LemmasStringPool ModelImport SpecImport LemmasImport
  LemmasImportTable ModelCompile ModelGeofeed SpecGeofeed LemmasGeofeed ModelOverrides SpecOverrides.
Import ListNotations.
Open Scope N_scope.

(** ** Tables *)
Section Keep.
  Context {B K A : Type}.
  Variable eqb : K -> K -> bool.
  Hypothesis eqb_iff : forall a b, eqb a b = true <-> a = b.
  Variable f : B -> option (K * A).
  Definition keeps (l : list B) (t : list (K * A)) : list (K * A) :=
    fold_left (fun t b => match f b with Some (k, a) => keep_first eqb k a t | None => t end) l t.
  Lemma has_key : forall k (t : list (K * A)), existsb (fun r => eqb (fst r) k) t = true <-> exists a, In (k, a) t.
  Proof.
    intros k t. rewrite existsb_exists. split.
    - intros ((k' & a) & I1 & E). apply eqb_iff in E. cbn [fst] in E. subst k'. now exists a.
    - intros (a & I1). exists (k, a). split; [exact I1|now apply eqb_iff].
  Qed.
  Lemma keep_first_in : forall k a (t : list (K * A)) k' a', In (k', a') (keep_first eqb k a t) <->
    In (k', a') t \/ (k' = k /\ a' = a /\ ~ exists a, In (k, a) t).
  Proof.
    intros k a t k' a'. unfold keep_first. destruct (existsb _ t) eqn:E.
    - apply has_key in E. split; [now left|]. intros [H|(_ & _ & H)]; [exact H|contradiction].
    - assert (X : ~ exists a, In (k, a) t) by (intros H; apply has_key in H; congruence).
      rewrite in_app_iff. cbn [In]. split.
      + intros [H|[H|[]]]; [now left|right]. injection H as <- <-. auto.
      + intros [H|(-> & -> & _)]; [now left|right; now left].
  Qed.
  Lemma keep_first_nodup : forall k a (t : list (K * A)), NoDup (map fst t) -> NoDup (map fst (keep_first eqb k a t)).
  Proof.
    intros k a t D. unfold keep_first. destruct (existsb _ t) eqn:E; [exact D|].
    rewrite map_app. cbn [map fst]. apply (Permutation_NoDup (l := k :: map fst t)); [apply Permutation_cons_append|]. constructor; [|exact D]. intros I1. apply in_map_iff in I1 as ((k' & a') & X & I1).
    cbn [fst] in X. subst k'. assert (existsb (fun r => eqb (fst r) k) t = true) by (apply has_key; now exists a'). congruence.
  Qed.
  Lemma keeps_nodup : forall l t, NoDup (map fst t) -> NoDup (map fst (keeps l t)).
  Proof.
    induction l as [|b l IH]; intros t D; [exact D|]. unfold keeps. cbn [fold_left]. apply IH.
    destruct (f b) as [[k a]|]; [now apply keep_first_nodup|exact D].
  Qed.
  Definition selects (b : B) (k : K) (a : A) : Prop := f b = Some (k, a).
  Lemma keeps_in : forall l t k a, In (k, a) (keeps l t) <-> In (k, a) t \/ ((~ exists a, In (k, a) t) /\ first_says selects l k a).
  Proof.
    induction l as [|b l IH]; intros t k a.
    - cbn. split; [now left|]. intros [H|(_ & x & b & y & E & _)]; [exact H|]. now destruct x.
    - unfold keeps. cbn [fold_left]. fold (keeps l).
      assert (Split : forall k a, first_says selects (b :: l) k a <-> f b = Some (k, a) \/ ((forall a', f b <> Some (k, a')) /\ first_says selects l k a)).
      { clear. intros k a. split.
        - intros ([|b0 x] & b' & y & E & P & N0); injection E as -> ->.
          + now left.
          + right. split; [intros a' H; exact (N0 _ a' (or_introl eq_refl) H)|]. exists x, b', y. split; [reflexivity|]. split; [exact P|].
            intros c a' I1. apply N0. now right.
        - intros [H|(N1 & x & b' & y & -> & P & N0)].
          + exists [], b, l. split; [reflexivity|]. split; [exact H|]. intros ? ? [].
          + exists (b :: x), b', y. split; [reflexivity|]. split; [exact P|]. intros c a' [<-|I1]; [apply N1|now apply N0]. }
      rewrite Split. destruct (f b) as [[k0 a0]|] eqn:F.
      + change (fold_left _ l ?t0) with (keeps l t0). rewrite IH, keep_first_in. split.
        * intros [[H|(-> & -> & H)]|(H & W)]; [now left|right; split; [exact H|now left]|].
          assert (N1 : ~ exists a, In (k, a) t) by (intros (a1 & I1); apply H; exists a1; apply keep_first_in; now left).
          right. split; [exact N1|]. right. split; [|exact W]. intros a' E. injection E as -> ->. apply H. exists a'. apply keep_first_in. right. auto.
        * intros [H|(H & [E|(N1 & W)])]; [left; now left|injection E as -> ->; left; right; auto|].
          right. split; [|exact W]. intros (a1 & I1). apply keep_first_in in I1 as [I1|(-> & -> & _)]; [apply H; now exists a1|now apply (N1 a0)].
      + change (fold_left _ l ?t0) with (keeps l t0). rewrite IH. split; [intros [H|(H & W)]; [now left|right; split; [exact H|right; split; [discriminate|exact W]]]|].
        intros [H|(H & [E|(_ & W)])]; [now left|discriminate|right; auto].
  Qed.
End Keep.

Lemma first_says_iff : forall {B K A} (P Q : B -> K -> A -> Prop) l k a,
  (forall b k a, In b l -> (P b k a <-> Q b k a)) -> (first_says P l k a <-> first_says Q l k a).
Proof.
  intros B K A P Q l k a H. split; intros (x & b & y & -> & Hp & Hn); exists x, b, y; split; [reflexivity| |reflexivity|].
  - split; [apply H; [apply in_or_app; right; now left|exact Hp]|]. intros b' a' I1 Hq. apply (Hn b' a' I1), H; [apply in_or_app; now left|exact Hq].
  - split; [apply H; [apply in_or_app; right; now left|exact Hp]|]. intros b' a' I1 Hq. apply (Hn b' a' I1), H; [apply in_or_app; now left|exact Hq].
Qed.

(** ** Blocks *)
Section Blocks.
  Variable space : N -> bool.
  Variable lower : cstr -> cstr.
  Variables py_net py_net_strict : cstr -> option pnet.
  Variable bigint : cstr -> option Z.
  Variable urlparse : cstr -> option (cstr * cstr).
  Notation pair := (pair space).
  Notation says := (says space).
  Notation value := (value space).
  Notation typed := (typed space).
  Notation parse_block := (parse_block space lower py_net py_net_strict bigint urlparse).
  Notation stops := (stops space py_net bigint urlparse).

  Lemma pair_iff : forall line key v, pair line key v <-> exists rest, partition COLON line = (key, Some rest) /\ strip space rest = v.
  Proof.
    intros line key v. split.
    - intros (rest & -> & P & T). exists rest. split; [now apply partition_plain|now apply strip_iff].
    - intros (rest & P & T). pose proof (partition_spec COLON line) as H. rewrite P in H. destruct H as [-> Pl].
      exists rest. split; [reflexivity|]. split; [exact Pl|now apply strip_iff].
  Qed.
  Lemma pair_fun : forall line k v k' v', pair line k v -> pair line k' v' -> k = k' /\ v = v'.
  Proof. intros line k v k' v' H1 H2. apply pair_iff in H1 as (r & P & S1), H2 as (r' & P' & S2). rewrite P in P'. injection P' as <- <-. split; congruence. Qed.
  Definition data_of (b : list cstr) (data : list (cstr * cstr)) : Prop := Forall2 (fun l d => pair l (fst d) (snd d)) b data.
  Lemma read_some : forall b data, read_block space b = Some data -> data_of b data.
  Proof.
    induction b as [|l b IH]; intros data H; cbn [read_block] in H; [injection H as <-; constructor|].
    destruct (partition COLON l) as [k [v|]] eqn:P; [|discriminate]. destruct (read_block space b) as [d|]; [|discriminate]. injection H as <-.
    constructor; [cbn [fst snd]; apply pair_iff; now exists v|now apply IH].
  Qed.
  Lemma read_none : forall b, read_block space b = None <-> exists l, In l b /\ plain COLON l.
  Proof.
    induction b as [|l b IH]; cbn [read_block]; [split; [discriminate|intros (? & [] & _)]|].
    pose proof (partition_spec COLON l) as P. destruct (partition COLON l) as [k [v|]].
    - destruct P as [-> P]. assert (X : ~ plain COLON (k ++ COLON :: v)) by (intros X; apply X, in_or_app; right; now left).
      destruct (read_block space b) as [d|].
      + split; [discriminate|]. intros (l1 & [<-|I1] & Pl); [contradiction|]. assert (Some d = None) by (apply IH; eauto). discriminate.
      + split; [intros _|reflexivity]. destruct (proj1 IH eq_refl) as (l1 & I1 & Pl). exists l1. split; [now right|exact Pl].
    - destruct P as [-> P]. split; [intros _; exists k; split; [now left|exact P]|reflexivity].
  Qed.
  Lemma data_in : forall b data l, data_of b data -> In l b -> exists d, In d data /\ pair l (fst d) (snd d).
  Proof. intros b data l F. induction F as [|x d b data P F IH]; intros []; [subst; exists d; split; [now left|exact P]|destruct (IH H) as (e & I1 & Pe); exists e; split; [now right|exact Pe]]. Qed.
  Lemma in_data : forall b data d, data_of b data -> In d data -> exists l, In l b /\ pair l (fst d) (snd d).
  Proof. intros b data l F. induction F as [|x d b data P F IH]; intros []; [subst; exists x; split; [now left|exact P]|destruct (IH H) as (e & I1 & Pe); exists e; split; [now right|exact Pe]]. Qed.
  Lemma get_value : forall b data key, data_of b data -> value b key (get data key).
  Proof.
    intros b data key F. induction F as [|l [k v] b data P F IH]; cbn [get]; [intros ? ? []|].
    destruct (get data key) as [w|] eqn:G; cbn [SpecOverrides.value] in *.
    - destruct IH as (x & l' & y & -> & Pl & N0). exists (l :: x), l', y. split; [reflexivity|]. split; [exact Pl|exact N0].
    - destruct (cstr_eqb k key) eqn:E; cbn [SpecOverrides.value fst snd] in *.
      + apply cstr_eqb_eq in E as ->. exists [], l, b. split; [reflexivity|]. split; [exact P|exact IH].
      + intros l' v' [<-|I1]; [|now apply IH]. intros H. destruct (pair_fun _ _ _ _ _ P H) as [-> _].
        assert (cstr_eqb key key = true) by (now apply cstr_eqb_eq). congruence.
  Qed.
  Lemma says_in : forall b key v, says b key v -> exists l, In l b /\ pair l key v.
  Proof. intros b key v (x & l & y & -> & P & _). exists l. split; [apply in_or_app; right; now left|exact P]. Qed.
  Lemma says_fun : forall b key v v', says b key v -> says b key v' -> v = v'.
  Proof.
    intros b key v v' (x & l & y & -> & P & N0) (x' & l' & y' & E & P' & N').
    apply app_eq_app in E as (w & [(-> & E)|(-> & E)]); destruct w as [|l1 w]; cbn [app] in E; injection E as -> E;
      try (apply (pair_fun _ _ _ _ _ P P')).
    - exfalso. subst y'. apply (N' l v); [apply in_or_app; right; now left|exact P].
    - exfalso. subst y. apply (N0 l' v'); [apply in_or_app; right; now left|exact P'].
  Qed.
  Lemma value_fun : forall b key o o', value b key o -> value b key o' -> o = o'.
  Proof.
    intros b key [v|] [v'|] H H'; cbn [SpecOverrides.value] in *; auto.
    - f_equal. now apply (says_fun b key).
    - apply says_in in H as (l & I1 & P). exfalso. exact (H' l v I1 P).
    - apply says_in in H' as (l & I1 & P). exfalso. exact (H l v' I1 P).
  Qed.
  Lemma value_iff : forall b data key o, data_of b data -> (value b key o <-> get data key = o).
  Proof. intros b data key o F. split; [intros H; apply (value_fun b key); [now apply get_value|exact H]|intros <-; now apply get_value]. Qed.
  Lemma says_iff : forall b data key v, data_of b data -> (says b key v <-> get data key = Some v).
  Proof. intros b data key v F. exact (value_iff b data key (Some v) F). Qed.
  Lemma yes_no_fun : forall o, yes_no lower o (match o with
      | None => None
      | Some val => if cstr_eqb (lower val) (txt "yes") || cstr_eqb (lower val) (txt "1") then Some true
                    else if cstr_eqb (lower val) (txt "no") || cstr_eqb (lower val) (txt "0") then Some false else None end).
  Proof.
    assert (X : forall a b, cstr_eqb a b = false -> a <> b) by (intros a b H E; apply cstr_eqb_eq in E; congruence).
    intros [v|]; [|intros ? ?; discriminate].
    destruct (cstr_eqb (lower v) (txt "yes")) eqn:E1; cbn [orb]; [exists v; split; [reflexivity|left; now apply cstr_eqb_eq]|].
    destruct (cstr_eqb (lower v) (txt "1")) eqn:E2; [exists v; split; [reflexivity|right; now apply cstr_eqb_eq]|].
    destruct (cstr_eqb (lower v) (txt "no")) eqn:E3; cbn [orb]; [exists v; split; [reflexivity|left; now apply cstr_eqb_eq]|].
    destruct (cstr_eqb (lower v) (txt "0")) eqn:E4; [exists v; split; [reflexivity|right; now apply cstr_eqb_eq]|].
    intros w E. injection E as <-. repeat apply conj; now apply X.
  Qed.
  Lemma yes_no_unique : forall o b b', yes_no lower o b -> yes_no lower o b' -> b = b'.
  Proof.
    intros o b b'.
    assert (N1 : txt "yes" <> txt "no" /\ txt "yes" <> txt "0" /\ txt "1" <> txt "no" /\ txt "1" <> txt "0") by (repeat split; vm_compute; discriminate).
    destruct b as [[]|], b' as [[]|]; auto; cbn [yes_no];
      intros H H'; try destruct H as (v & -> & H); try destruct H' as (v' & E & H'); try (injection E as <-);
      try (specialize (H' _ eq_refl)); try (subst; specialize (H _ eq_refl)); exfalso; intuition congruence.
  Qed.
  Lemma flag_iff : forall b data key x, data_of b data -> (flag space lower b key x <-> parse_bool lower data key = x).
  Proof.
    intros b data key x F. unfold flag, parse_bool. pose proof (yes_no_fun (get data key)) as Y. split.
    - intros (o & V & H). apply (value_iff _ _ _ _ F) in V. rewrite V in *. exact (yes_no_unique _ _ _ Y H).
    - intros <-. exists (get data key). split; [now apply get_value|exact Y].
  Qed.
  Lemma about_iff : forall b data a, data_of b data -> (about space lower b a <-> get_attrs lower data = a).
  Proof.
    intros b data a F. unfold about, get_attrs. rewrite (value_iff _ _ _ _ F), !(flag_iff _ _ _ _ F). destruct a; cbn. split.
    - intros (<- & <- & <- & <- & <-). reflexivity.
    - intros H. injection H as <- <- <- <- <-. auto.
  Qed.
  Lemma typed_iff : forall b data t, data_of b data -> (typed b t <-> exists v d, data = (t, v) :: d).
  Proof.
    intros b data t F. split.
    - intros (l & b' & v & -> & P). inversion F as [|l1 [k v1] b1 d P1 F1 E1 E2]; subst. destruct (pair_fun _ _ _ _ _ P P1) as [-> ->]. now exists v1, d.
    - intros (v & d & ->). inversion F as [|l1 [k v1] b1 d1 P1 F1 E1 E2]; subst. now exists l1, b1, v.
  Qed.

  Lemma typed_get : forall t v d, exists w, get ((t, v) :: d) t = Some w.
  Proof.
    intros t v d. cbn [get]. destruct (get d t) as [w|]; [now exists w|]. exists v.
    replace (cstr_eqb t t) with true; [reflexivity|]. symmetry. now apply cstr_eqb_eq.
  Qed.
  Lemma sendable_iff : forall b data key, data_of b data -> (sendable (get data key) = false <-> with_nul space b key).
  Proof.
    intros b data key F. unfold with_nul. split.
    - destruct (get data key) as [v|] eqn:G; [|discriminate]. cbn [sendable]. intros H. exists v. split; [now apply (says_iff _ _ _ _ F)|].
      destruct (in_dec N.eq_dec 0 v) as [I1|N1]; [exact I1|]. apply has_nul_iff in N1. rewrite N1 in H. discriminate.
    - intros (v & V & I1). apply (says_iff _ _ _ _ F) in V. rewrite V. cbn [sendable]. destruct (has_nul v) eqn:E; [reflexivity|]. apply has_nul_iff in E. contradiction.
  Qed.
  Lemma networks_in : forall l n, In n (networks_of py_net_strict l) <-> exists s, In s l /\ py_net_strict s = Some n.
  Proof.
    induction l as [|s l IH]; intros n; cbn [networks_of]; [split; [intros []|intros (? & [] & _)]|].
    destruct (py_net_strict s) as [m|] eqn:E; cbn [In]; rewrite ?IH; split.
    - intros [->|(x & I1 & X)]; [exists s; auto|exists x; auto].
    - intros (x & [<-|I1] & X); [left; congruence|right; eauto].
    - intros (x & I1 & X). exists x; auto.
    - intros (x & [<-|I1] & X); [congruence|eauto].
  Qed.
  Lemma lists_iff : forall b data n, data_of b data -> (lists space py_net_strict b n <-> In n (networks_of py_net_strict (get_all data (txt "network")))).
  Proof.
    intros b data n F. rewrite networks_in. unfold lists, get_all. split.
    - intros (l & s & I1 & P & E). destruct (data_in _ _ _ F I1) as (d & I2 & P2). destruct (pair_fun _ _ _ _ _ P P2) as [K ->].
      exists (snd d). split; [|exact E]. apply in_map. apply filter_In. split; [exact I2|]. now apply cstr_eqb_eq.
    - intros (s & I1 & E). apply in_map_iff in I1 as (d & <- & I1). apply filter_In in I1 as [I1 K]. apply cstr_eqb_eq in K.
      destruct (in_data _ _ _ F I1) as (l & I2 & P). exists l, (snd d). rewrite K in P. auto.
  Qed.
  Lemma as_split : forall s, cstr_eqb (firstn 2 s) (txt "AS") = true -> s = txt "AS" ++ skipn 2 s.
  Proof. intros s H. apply cstr_eqb_eq in H. rewrite <- H. symmetry. apply firstn_skipn. Qed.
  Lemma three_types : txt "net" <> txt "aut-num" /\ txt "net" <> txt "geofeed" /\ txt "aut-num" <> txt "geofeed".
  Proof. repeat split; vm_compute; discriminate. Qed.
  Lemma eqb_neq : forall a b, cstr_eqb a b = false -> a <> b.
  Proof. intros a b H E. apply cstr_eqb_eq in E. congruence. Qed.
  Lemma typed_one : forall b t t', typed b t -> typed b t' -> t = t'.
  Proof. intros b t t' (l & b' & v & -> & P) (l' & b2 & v' & E & P'). injection E as <- <-. apply (pair_fun _ _ _ _ _ P P'). Qed.

  Lemma parse_stops : forall b, parse_block b = None <-> stops b.
  Proof.
    intros b. unfold ModelOverrides.parse_block. destruct (read_block space b) as [data|] eqn:R.
    2:{ split; [intros _; left; now apply read_none|reflexivity]. }
    assert (NC : ~ exists l, In l b /\ plain COLON l) by (intros H; apply read_none in H; congruence).
    apply read_some in R. pose proof three_types as (T1 & T2 & T3).
    destruct data as [|[t v] d].
    { split; [discriminate|]. intros [H|[(H & _)|[(H & _)|(H & _)]]]; [contradiction| | |]; apply (typed_iff _ _ _ R) in H as (? & ? & H); discriminate. }
    assert (Ty : forall t', typed b t' <-> t = t').
    { intros t'. rewrite (typed_iff _ _ _ R). split; [intros (? & ? & H); congruence|intros ->; eauto]. }
    pose proof (fun k v => says_iff b _ k v R) as Sa. pose proof (fun k => sendable_iff b _ k R) as Se.
    destruct (typed_get t v d) as [w Gw]. set (data := (t, v) :: d) in *. clearbody data.
    destruct (cstr_eqb t (txt "net")) eqn:Et; [apply cstr_eqb_eq in Et; subst t|apply eqb_neq in Et].
    - rewrite Gw. destruct (py_net w) as [n|] eqn:Pn.
      + destruct (p_len n =? 0) eqn:Z0.
        * split; [discriminate|]. intros [H|[(_ & _ & s & m & H & E & L)|[(H & _)|(H & _)]]]; [contradiction| | |]; try (apply Ty in H; congruence).
          apply Sa in H. replace m with n in L by congruence. lia.
        * destruct (sendable (get data (txt "country"))) eqn:E; split; try discriminate.
          -- intros [H|[(_ & H & _)|[(H & _)|(H & _)]]]; [contradiction| | |]; try (apply Ty in H; congruence). apply Se in H. congruence.
          -- intros _. right. left. split; [now apply Ty|]. split; [now apply Se|]. exists w, n. split; [now apply Sa|]. split; [exact Pn|lia].
          -- reflexivity.
      + split; [discriminate|]. intros [H|[(_ & _ & s & m & H & E & L)|[(H & _)|(H & _)]]]; [contradiction| | |]; try (apply Ty in H; congruence).
        apply Sa in H. congruence.
    - destruct (cstr_eqb t (txt "aut-num")) eqn:Ea; [apply cstr_eqb_eq in Ea; subst t|apply eqb_neq in Ea].
      + rewrite Gw. destruct (cstr_eqb (firstn 2 w) (txt "AS")) eqn:A2; cbn [negb].
        * apply as_split in A2. destruct (sendable (get data (txt "name")) && sendable (get data (txt "country"))) eqn:E.
          -- apply andb_prop in E as [E1 E2]. destruct (bigint (skipn 2 w)) as [z|] eqn:B; split; try discriminate.
             ++ intros [H|[(H & _)|[(_ & s & H & X)|(H & _)]]]; [contradiction| | |]; try (apply Ty in H; congruence).
                apply Sa in H. rewrite Gw in H. injection H as ->. cbn [txt app skipn] in B. destruct X as [X|[X|X]]; [|apply Se in X; congruence|apply Se in X; congruence].
                change (skipn 2 (txt "AS" ++ s)) with s in B. congruence.
             ++ intros _. right. right. left. split; [now apply Ty|]. exists (skipn 2 w). split; [apply Sa; congruence|]. now left.
             ++ reflexivity.
          -- split; [intros _|reflexivity]. right. right. left. split; [now apply Ty|]. exists (skipn 2 w). split; [apply Sa; congruence|].
             right. apply andb_false_iff in E as [E|E]; [left|right]; now apply Se.
        * split; [discriminate|]. intros [H|[(H & _)|[(_ & s & H & _)|(H & _)]]]; [contradiction| | |]; try (apply Ty in H; congruence).
          apply Sa in H. rewrite Gw in H. injection H as ->. change (firstn 2 (txt "AS" ++ s)) with (txt "AS") in A2.
          exfalso. revert A2. vm_compute. discriminate.
      + destruct (cstr_eqb t (txt "geofeed")) eqn:Eg; [apply cstr_eqb_eq in Eg; subst t|apply eqb_neq in Eg].
        * rewrite Gw. unfold check_geofeed_url. destruct (urlparse w) as [[scheme url]|] eqn:U.
          2:{ split; [discriminate|]. intros [H|[(H & _)|[(H & _)|(_ & s & url & H & E & _)]]]; [contradiction| | |]; try (apply Ty in H; congruence). apply Sa in H. congruence. }
          destruct (cstr_eqb scheme (txt "https")) eqn:Hs.
          2:{ apply eqb_neq in Hs. split; [discriminate|]. intros [H|[(H & _)|[(H & _)|(_ & s & u & H & E & _)]]]; [contradiction| | |]; try (apply Ty in H; congruence). apply Sa in H. congruence. }
          apply cstr_eqb_eq in Hs as ->. destruct url as [|c url].
          { split; [discriminate|]. intros [H|[(H & _)|[(H & _)|(_ & s & u & H & E & I1)]]]; [contradiction| | |]; try (apply Ty in H; congruence).
            apply Sa in H. replace u with (@nil N) in I1 by congruence. destruct I1. }
          destruct (sendable (Some (c :: url))) eqn:E; unfold sendable in E; split; try discriminate; try reflexivity.
          -- intros [H|[(H & _)|[(H & _)|(_ & s & u & H & E2 & I1)]]]; [contradiction| | |]; try (apply Ty in H; congruence).
             apply Sa in H. replace u with (c :: url) in I1 by congruence. apply negb_true_iff, has_nul_iff in E. contradiction.
          -- intros _. right. right. right. split; [now apply Ty|]. exists w, (c :: url). split; [now apply Sa|]. split; [exact U|].
             destruct (in_dec N.eq_dec 0 (c :: url)) as [I1|N1]; [exact I1|]. apply has_nul_iff in N1. rewrite N1 in E. discriminate.
        * split; [discriminate|]. intros [H|[(H & _)|[(H & _)|(H & _)]]]; [contradiction| | |]; apply Ty in H; congruence.
  Qed.
  Lemma parse_net : forall b n a, ~ stops b -> (parse_block b = Some (Net n a) <-> wants_net space lower py_net b n a).
  Proof.
    intros b n a N0. assert (N1 : parse_block b <> None) by (intros H; now apply parse_stops in H). revert N1. clear N0.
    unfold ModelOverrides.parse_block. destruct (read_block space b) as [data|] eqn:R; [|contradiction]. intros N1.
    apply read_some in R. pose proof three_types as (T1 & T2 & T3).
    destruct data as [|[t v] d].
    { split; [discriminate|]. intros (H & _). apply (typed_iff _ _ _ R) in H as (? & ? & H); discriminate. }
    assert (Ty : forall t', typed b t' <-> t = t').
    { intros t'. rewrite (typed_iff _ _ _ R). split; [intros (? & ? & H); congruence|intros ->; eauto]. }
    pose proof (fun k v => says_iff b _ k v R) as Sa. pose proof (fun a => about_iff b _ a R) as Ab.
    destruct (typed_get t v d) as [w Gw]. set (data := (t, v) :: d) in *. clearbody data.
    destruct (cstr_eqb t (txt "net")) eqn:Et; [apply cstr_eqb_eq in Et; subst t|apply eqb_neq in Et].
    - rewrite Gw in *. destruct (py_net w) as [m|] eqn:Pn.
      2:{ split; [discriminate|]. intros (_ & s & H & E & _). apply Sa in H. congruence. }
      destruct (p_len m =? 0) eqn:Z0.
      { split; [discriminate|]. intros (_ & s & H & E & L & _). apply Sa in H. replace m with n in Z0 by congruence. lia. }
      destruct (sendable _); [|contradiction]. split.
      + intros H. injection H as -> <-. split; [now apply Ty|]. exists w. split; [now apply Sa|]. split; [exact Pn|]. split; [lia|now apply Ab].
      + intros (_ & s & H & E & L & A). apply Sa in H. apply Ab in A. do 2 f_equal; congruence.
    - split; [|intros (H & _); apply Ty in H; congruence].
      destruct (cstr_eqb t (txt "aut-num")).
      + destruct (get data (txt "aut-num")) as [u|]; [|discriminate]. destruct (negb _); [discriminate|]. destruct (_ && _); [|discriminate]. destruct (bigint _); discriminate.
      + destruct (cstr_eqb t (txt "geofeed")); [|discriminate]. destruct (get data (txt "geofeed")) as [u|]; [|discriminate].
        destruct (check_geofeed_url urlparse u) as [[|c x]|]; try discriminate. destruct (sendable _); discriminate.
  Qed.
  Lemma parse_as : forall b z name a, ~ stops b -> (parse_block b = Some (As z name a) <-> wants_as space lower bigint b z name a).
  Proof.
    intros b z name a N0. assert (N1 : parse_block b <> None) by (intros H; now apply parse_stops in H). revert N1. clear N0.
    unfold ModelOverrides.parse_block. destruct (read_block space b) as [data|] eqn:R; [|contradiction]. intros N1.
    apply read_some in R. pose proof three_types as (T1 & T2 & T3).
    destruct data as [|[t v] d].
    { split; [discriminate|]. intros (H & _). apply (typed_iff _ _ _ R) in H as (? & ? & H); discriminate. }
    assert (Ty : forall t', typed b t' <-> t = t').
    { intros t'. rewrite (typed_iff _ _ _ R). split; [intros (? & ? & H); congruence|intros ->; eauto]. }
    pose proof (fun k v => says_iff b _ k v R) as Sa. pose proof (fun k o => value_iff b _ k o R) as Va. pose proof (fun a => about_iff b _ a R) as Ab.
    destruct (typed_get t v d) as [w Gw]. set (data := (t, v) :: d) in *. clearbody data.
    destruct (cstr_eqb t (txt "net")) eqn:Et; [apply cstr_eqb_eq in Et; subst t|apply eqb_neq in Et].
    { split; [|intros (H & _); apply Ty in H; congruence]. rewrite Gw in *. destruct (py_net w); [|discriminate]. destruct (_ =? 0); [discriminate|].
      destruct (sendable _); discriminate. }
    destruct (cstr_eqb t (txt "aut-num")) eqn:Ea; [apply cstr_eqb_eq in Ea; subst t|apply eqb_neq in Ea].
    - rewrite Gw in *. destruct (cstr_eqb (firstn 2 w) (txt "AS")) eqn:A2; cbn [negb] in *.
      + apply as_split in A2. destruct (_ && _); [|contradiction]. destruct (bigint (skipn 2 w)) as [y|] eqn:B; [|contradiction]. split.
        * intros H. injection H as -> <- <-. split; [now apply Ty|]. exists (skipn 2 w). split; [apply Sa; congruence|]. split; [exact B|]. split; [now apply Va|now apply Ab].
        * intros (_ & s & H & E & Hn & A). apply Sa in H. rewrite Gw in H. injection H as ->. cbn [skipn] in B.
          apply Va in Hn. apply Ab in A. rewrite Hn, A. do 2 f_equal. congruence.
      + split; [discriminate|]. intros (_ & s & H & _). apply Sa in H. rewrite Gw in H. injection H as ->. cbn [firstn] in A2.
        exfalso. revert A2. vm_compute. discriminate.
    - split; [|intros (H & _); apply Ty in H; congruence].
      destruct (cstr_eqb t (txt "geofeed")); [|discriminate]. destruct (get data (txt "geofeed")) as [u|]; [|discriminate].
      destruct (check_geofeed_url urlparse u) as [[|c x]|]; try discriminate. destruct (sendable _); discriminate.
  Qed.
  Notation wants_feed := (wants_feed space py_net_strict urlparse).
  Lemma parse_feed : forall b url n, ~ stops b -> ((exists l, parse_block b = Some (Feed url l) /\ In n l) <-> wants_feed b url n).
  Proof.
    intros b url n N0. assert (N1 : parse_block b <> None) by (intros H; now apply parse_stops in H). revert N1. clear N0.
    unfold ModelOverrides.parse_block. destruct (read_block space b) as [data|] eqn:R; [|contradiction]. intros N1.
    apply read_some in R. pose proof three_types as (T1 & T2 & T3).
    destruct data as [|[t v] d].
    { split; [intros (? & ? & _); discriminate|]. intros (H & _). apply (typed_iff _ _ _ R) in H as (? & ? & H); discriminate. }
    assert (Ty : forall t', typed b t' <-> t = t').
    { intros t'. rewrite (typed_iff _ _ _ R). split; [intros (? & ? & H); congruence|intros ->; eauto]. }
    pose proof (fun k v => says_iff b _ k v R) as Sa. pose proof (fun n => lists_iff b _ n R) as Li.
    destruct (typed_get t v d) as [w Gw]. set (data := (t, v) :: d) in *. clearbody data.
    destruct (cstr_eqb t (txt "net")) eqn:Et; [apply cstr_eqb_eq in Et; subst t|apply eqb_neq in Et].
    { split; [|intros (H & _); apply Ty in H; congruence]. rewrite Gw in *. intros (l & H & _). destruct (py_net w); [|discriminate]. destruct (_ =? 0); [discriminate|].
      destruct (sendable _); discriminate. }
    destruct (cstr_eqb t (txt "aut-num")) eqn:Ea; [apply cstr_eqb_eq in Ea; subst t|apply eqb_neq in Ea].
    { split; [|intros (H & _); apply Ty in H; congruence]. rewrite Gw in *. intros (l & H & _). destruct (negb _); [discriminate|]. destruct (_ && _); [|discriminate].
      destruct (bigint _); discriminate. }
    destruct (cstr_eqb t (txt "geofeed")) eqn:Eg; [apply cstr_eqb_eq in Eg; subst t|apply eqb_neq in Eg].
    2:{ split; [intros (? & ? & _); discriminate|intros (H & _); apply Ty in H; congruence]. }
    rewrite Gw in *. unfold check_geofeed_url in *. destruct (urlparse w) as [[scheme u]|] eqn:U.
    2:{ split; [intros (? & ? & _); discriminate|]. intros (_ & _ & (s & H & E) & _). apply Sa in H. congruence. }
    destruct (cstr_eqb scheme (txt "https")) eqn:Hs.
    2:{ apply eqb_neq in Hs. split; [intros (? & ? & _); discriminate|]. intros (_ & _ & (s & H & E) & _). apply Sa in H. congruence. }
    apply cstr_eqb_eq in Hs as ->. destruct u as [|c u].
    { split; [intros (? & ? & _); discriminate|]. intros (_ & X & (s & H & E) & _). apply Sa in H. congruence. }
    destruct (sendable (Some (c :: u))); [|contradiction].
    assert (Ls : In n (match networks_of py_net_strict (get_all data (txt "network")) with [] => defaults | l => l end) <->
      lists space py_net_strict b n \/ ((forall m, ~ lists space py_net_strict b m) /\ (n = mkP 128 0 0 \/ n = mkP 32 0 0))).
    { destruct (networks_of _ _) as [|m ms] eqn:E.
      - split; [intros [<-|[<-|[]]]; right|intros [H|(_ & [-> | ->])]].
        + split; [intros m H; apply Li in H as []|now left].
        + split; [intros m H; apply Li in H as []|now right].
        + apply Li in H as [].
        + now left.
        + right. now left.
      - rewrite <- Li. split; [now left|]. intros [H|(H & _)]; [exact H|]. exfalso. apply (H m), Li. now left. }
    split.
    - intros (l & H & I1). injection H as <- <-. split; [now apply Ty|]. split; [discriminate|]. split; [exists w; split; [now apply Sa|exact U]|now apply Ls].
    - intros (_ & _ & (s & H & E) & L). apply Sa in H. replace url with (c :: u) by congruence. eexists. split; [reflexivity|now apply Ls].
  Qed.
End Blocks.

(** ** Tables of feeds *)
Lemma pnet_dec : forall a b : pnet, {a = b} + {a <> b}.
Proof. decide equality; apply N.eq_dec. Qed.
Lemma feed_dec : forall a b : geofeed, {a = b} + {a <> b}.
Proof. decide equality; try (decide equality; apply Z.eq_dec); [apply (list_eq_dec N.eq_dec)|apply N.eq_dec]. Qed.
Lemma same_link_iff : forall n url r, same_link n url r = true <-> fst r = (n, url).
Proof.
  intros n url [[m u] s]. unfold same_link. cbn [fst snd]. rewrite andb_true_iff, pnet_eqb_eq, cstr_eqb_eq. split; [intros [-> ->]; reflexivity|intros E; injection E; auto].
Qed.
Lemma permit_in : forall url source t n m u s, In (m, u, s) (permit url source t n) <->
  ((m, u) = (n, url) /\ s = source) \/ (In (m, u, s) t /\ (m, u) <> (n, url)).
Proof.
  intros url source t n m u s. unfold permit. destruct (existsb (same_link n url) t) eqn:E.
  - apply existsb_exists in E as (r & I1 & E). rewrite in_map_iff. split.
    + intros (q & X & Iq). destruct (same_link n url q) eqn:Q.
      * apply same_link_iff in Q. left. rewrite Q in X. injection X as <- <- <-. auto.
      * right. subst q. split; [exact Iq|]. intros X. assert (same_link n url (m, u, s) = true) by (now apply same_link_iff). congruence.
    + intros [[X ->]|(Iq & X)].
      * exists r. rewrite E. split; [|exact I1]. apply same_link_iff in E. now rewrite E, X.
      * exists (m, u, s). split; [|exact Iq]. destruct (same_link n url (m, u, s)) eqn:Q; [|reflexivity]. apply same_link_iff in Q. contradiction.
  - assert (X : forall s, ~ In (n, url, s) t).
    { intros s0 I1. assert (existsb (same_link n url) t = true); [|congruence]. apply existsb_exists. exists (n, url, s0). split; [exact I1|now apply same_link_iff]. }
    rewrite in_app_iff. cbn [In]. split.
    + intros [I1|[Q|[]]]; [right; split; [exact I1|]; intros Q; injection Q as -> ->; exact (X _ I1)|]. injection Q as <- <- <-. now left.
    + intros [[Q ->]|(I1 & _)]; [right; left; now rewrite Q|now left].
Qed.
Lemma permits_in : forall url source l t m u s, In (m, u, s) (fold_left (permit url source) l t) <->
  ((u = url /\ In m l) /\ s = source) \/ (In (m, u, s) t /\ ~ (u = url /\ In m l)).
Proof.
  intros url source. induction l as [|n l IH]; intros t m u s; cbn [fold_left In]; [split; [intros H; right; split; [exact H|tauto]|intros [[[_ []] _]|[H _]]; exact H]|].
  rewrite IH, permit_in. split.
  - intros [[[-> H] ->]|([[E ->]|(H & N0)] & N1)].
    + left. auto.
    + injection E as -> ->. left. auto.
    + right. split; [exact H|]. intros [-> [->|I1]]; [now apply N0|apply N1; auto].
  - intros [[[-> [->|I1]] ->]|(H & N0)].
    + destruct (in_dec pnet_dec m l) as [I1|N1]; [left; auto|right]. split; [left; auto|tauto].
    + left. auto.
    + right. split; [right; split; [exact H|]|]; [intros E; injection E as -> ->; apply N0; auto|intros [-> I1]; apply N0; auto].
Qed.
Lemma known_refl : forall g, known_feeds g g (fun _ => False).
Proof. intros g. split; [intros url; tauto|]. split; [auto|]. split; [reflexivity|]. intros f H1 H2. contradiction. Qed.
Lemma link_known : forall url g, geo_wf g -> geo_wf (link url g) /\ known_feeds g (link url g) (fun u => u = url).
Proof.
  intros url g (D1 & D2 & Lt & Fk). unfold link.
  destruct (existsb (fun f => cstr_eqb (g_url f) url) (ge_feeds g)) eqn:E.
  - apply existsb_exists in E as (f & I1 & E). apply cstr_eqb_eq in E. split.
    + split; [exact D1|]. split; [exact D2|]. cbn [ge_feeds ge_serial ge_places]. split; [intros h I2; specialize (Lt h I2); lia|exact Fk].
    + split; [intros u; cbn [ge_feeds]; split; [now left|intros [H| ->]; [exact H|now exists f]]|]. cbn [ge_feeds ge_places]. split; [auto|]. split; [reflexivity|]. intros h H1 H2. contradiction.
  - assert (Nu : forall f, In f (ge_feeds g) -> g_url f <> url).
    { intros f I1 X. assert (existsb (fun f => cstr_eqb (g_url f) url) (ge_feeds g) = true); [|congruence].
      apply existsb_exists. exists f. split; [exact I1|]. now apply cstr_eqb_eq. }
    split.
    + split; [|split]; cbn [ge_feeds ge_serial ge_places].
      * rewrite map_app. cbn [map g_id]. apply (Permutation_NoDup (l := ge_serial g :: map g_id (ge_feeds g))); [apply Permutation_cons_append|].
        constructor; [|exact D1]. intros X. apply in_map_iff in X as (f & X & I1). specialize (Lt f I1). lia.
      * rewrite map_app. cbn [map g_url]. apply (Permutation_NoDup (l := url :: map g_url (ge_feeds g))); [apply Permutation_cons_append|].
        constructor; [|exact D2]. intros X. apply in_map_iff in X as (f & X & I1). now apply (Nu f I1).
      * split; [intros f I1; apply in_app_or in I1 as [I1|[<-|[]]]; [specialize (Lt f I1); lia|cbn [g_id]; lia]|].
        intros r I1. destruct (Fk r I1) as (f & I2 & X). exists f. split; [apply in_or_app; now left|exact X].
    + cbn [ge_feeds ge_places]. split; [|split; [|split; [reflexivity|]]].
      * intros u. cbn [ge_feeds]. split.
        -- intros (f & I1 & X). apply in_app_or in I1 as [I1|[<-|[]]]; [left; now exists f|right; now symmetry].
        -- intros [(f & I1 & X)| ->]; [exists f; split; [apply in_or_app; now left|exact X]|]. eexists. split; [apply in_or_app; right; left; reflexivity|reflexivity].
      * intros f I1. apply in_or_app. now left.
      * intros f I1 N1. apply in_app_or in I1 as [I1|[<-|[]]]; [contradiction|now split].
Qed.
Lemma known_trans : forall g1 g2 g3 P Q, known_feeds g1 g2 P -> known_feeds g2 g3 Q -> known_feeds g1 g3 (fun u => P u \/ Q u).
Proof.
  intros g1 g2 g3 P Q (A1 & B1 & C1 & D1) (A2 & B2 & C2 & D2). split; [|split; [auto|split; [congruence|]]].
  - intros u. rewrite A2, A1. tauto.
  - intros f I3 N1. destruct (in_dec feed_dec f (ge_feeds g2)) as [I2|N2]; auto.
Qed.
Lemma known_iff : forall g g' P Q, (forall u, P u <-> Q u) -> known_feeds g g' P -> known_feeds g g' Q.
Proof. intros g g' P Q H (A & B). split; [intros u; rewrite A, H; tauto|exact B]. Qed.

(** ** All blocks *)
Section Update.
  Variable decode : list N -> cstr.
  Variable space : N -> bool.
  Variable lower : cstr -> cstr.
  Variables py_net py_net_strict : cstr -> option pnet.
  Variable bigint : cstr -> option Z.
  Variable urlparse : cstr -> option (cstr * cstr).
  Notation parse := (parse_block space lower py_net py_net_strict bigint urlparse).
  Notation stops := (stops space py_net bigint urlparse).
  Notation wants_feed := (wants_feed space py_net_strict urlparse).
  Notation apply_blocks := (apply_blocks space lower py_net py_net_strict bigint urlparse).
  Definition net_of (b : list cstr) := match parse b with Some (Net n a) => Some (n, a) | _ => None end.
  Definition as_of (b : list cstr) := match parse b with Some (As z name a) => Some (z, (name, a)) | _ => None end.
  Definition as_block (b : list cstr) (z : Z) (x : option cstr * attrs) : Prop := wants_as space lower bigint b z (fst x) (snd x).
  Definition source : cstr := txt "overrides".
  Definition permitted (blocks : list (list cstr)) (url : cstr) (n : pnet) : Prop := exists b, In b blocks /\ wants_feed b url n.
  Lemma feed_one : forall b url url' l n, ~ stops b -> parse b = Some (Feed url l) -> (wants_feed b url' n <-> url' = url /\ In n l).
  Proof.
    intros b url url' l n N0 P. rewrite <- (parse_feed space lower py_net py_net_strict bigint urlparse b url' n N0). rewrite P. split.
    - intros (l' & E & I1). injection E as <- <-. auto.
    - intros (-> & I1). now exists l.
  Qed.
  Lemma networks_some : forall b url l, parse b = Some (Feed url l) -> exists n, In n l.
  Proof.
    intros b url l. unfold ModelOverrides.parse_block. destruct (read_block space b) as [[|[t v] d]|]; try discriminate.
    destruct (cstr_eqb t _).
    { destruct (get _ _); [|discriminate]. destruct (py_net _); [|discriminate]. destruct (_ =? 0); [discriminate|]. destruct (sendable _); discriminate. }
    destruct (cstr_eqb t _).
    { destruct (get _ _); [|discriminate]. destruct (negb _); [discriminate|]. destruct (_ && _); [|discriminate]. destruct (bigint _); discriminate. }
    destruct (cstr_eqb t _); [|discriminate]. destruct (get _ _); [|discriminate].
    destruct (check_geofeed_url urlparse _) as [[|x y]|]; try discriminate. destruct (sendable _); [|discriminate]. intros E. injection E as <- <-.
    destruct (networks_of _ _) as [|m ms]; [exists (mkP 128 0 0)|exists m]; now left.
  Qed.
  Lemma wants_dec : forall b url n, ~ stops b -> wants_feed b url n \/ ~ wants_feed b url n.
  Proof.
    intros b url n N0. pose proof (parse_feed space lower py_net py_net_strict bigint urlparse b url n N0) as P.
    destruct (parse b) as [[m a|z name a|u l|]|]; try (right; intros X; apply P in X as (? & X & _); discriminate).
    destruct (list_eq_dec N.eq_dec u url) as [->|Ne]; [|right; intros X; apply P in X as (? & X & _); congruence].
    destruct (in_dec pnet_dec n l) as [I1|N1]; [left; apply P; now exists l|right; intros X; apply P in X as (? & X & ?)].
    injection X as <-. contradiction.
  Qed.
  Lemma permitted_dec : forall blocks url n, (forall b, In b blocks -> ~ stops b) -> permitted blocks url n \/ ~ permitted blocks url n.
  Proof.
    induction blocks as [|b blocks IH]; intros url n H; [right; intros (? & [] & _)|].
    destruct (wants_dec b url n (H b (or_introl eq_refl))) as [X|X]; [left; exists b; split; [now left|exact X]|].
    destruct (IH url n (fun x I1 => H x (or_intror I1))) as [(x & I1 & Y)|Y]; [left; exists x; split; [now right|exact Y]|].
    right. intros (x & [<-|I1] & Z); [contradiction|]. apply Y. now exists x.
  Qed.
  Lemma blocks_applied : forall blocks st, (forall b, In b blocks -> ~ stops b) -> geo_wf (ov_geo st) ->
    exists st', apply_blocks blocks st = Some st' /\
      ov_networks st' = keeps pnet_eqb net_of blocks (ov_networks st) /\ ov_autnums st' = keeps Z.eqb as_of blocks (ov_autnums st) /\
      geo_wf (ov_geo st') /\ known_feeds (ov_geo st) (ov_geo st') (fun url => exists n, permitted blocks url n) /\
      forall n url s, In (n, url, s) (ov_links st') <->
        (permitted blocks url n /\ s = source) \/ (In (n, url, s) (ov_links st) /\ ~ permitted blocks url n).
  Proof.
    induction blocks as [|b blocks IH]; intros st H W.
    - exists st. split; [reflexivity|]. split; [reflexivity|]. split; [reflexivity|]. split; [exact W|]. split.
      + apply (known_iff _ _ (fun _ => False)); [|apply known_refl]. intros u. split; [intros []|intros (n & b & [] & _)].
      + intros n url s. split; [intros I1; right; split; [exact I1|intros (b & [] & _)]|intros [((b & [] & _) & _)|(I1 & _)]; exact I1].
    - assert (Nb : ~ stops b) by (apply H; now left).
      assert (Hn : parse b <> None) by (intros X; now apply parse_stops in X).
      cbn [ModelOverrides.apply_blocks]. unfold keeps. cbn [fold_left]. unfold net_of at 2, as_of at 2.
      pose proof (feed_one b) as Fo. pose proof (networks_some b) as Ne.
      pose proof (fun url n => parse_feed space lower py_net py_net_strict bigint urlparse b url n Nb) as Pf.
      assert (Pe : forall url n, permitted (b :: blocks) url n <-> wants_feed b url n \/ permitted blocks url n).
      { intros url n. unfold permitted. split; [intros (x & [<-|I1] & X); eauto|]. intros [X|(x & I1 & X)]; [exists b; split; [now left|exact X]|exists x; split; [now right|exact X]]. }
      destruct (parse b) as [c|]; [clear Hn|contradiction].
      assert (Wa : geo_wf (ov_geo (apply st c))) by (destruct c; cbn [apply ov_geo]; auto; now apply link_known).
      destruct (IH (apply st c) (fun x I1 => H x (or_intror I1)) Wa) as (st' & E1 & E2 & E3 & E4 & E5 & E6).
      exists st'. split; [exact E1|]. split; [rewrite E2; destruct c; reflexivity|]. split; [rewrite E3; destruct c; reflexivity|]. split; [exact E4|].
      destruct c as [m a|z name a|u l|]; cbn [apply ov_geo ov_links] in E5, E6.
      1,2,4: assert (Nw : forall url n, ~ wants_feed b url n) by (intros url n X; apply Pf in X as (l & X & _); discriminate).
      1,2,3: split; [apply (known_iff _ _ (fun url => exists n, permitted blocks url n)); [|exact E5];
        intros url; split; intros (n & X); exists n; [apply Pe; now right|apply Pe in X as [X|X]; [now apply Nw in X|exact X]]|].
      1,2,3: intros n url s; rewrite E6; assert (Q : permitted (b :: blocks) url n <-> permitted blocks url n) by (rewrite Pe; split; [intros [X|X]; [now apply Nw in X|exact X]|auto]); tauto.
      specialize (fun url' n => Fo u url' l n Nb eq_refl).
      split.
      + apply (known_iff _ _ (fun url => url = u \/ exists n, permitted blocks url n)).
        * intros url. split.
          -- intros [->|(n & X)]; [destruct (Ne u l eq_refl) as (n & I1); exists n; apply Pe; left; now apply Fo|exists n; apply Pe; now right].
          -- intros (n & X). apply Pe in X as [X|X]; [apply Fo in X as [-> _]; now left|right; now exists n].
        * apply (known_trans _ (link u (ov_geo st))); [now apply link_known|exact E5].
      + intros n url s. rewrite E6, permits_in, Pe, Fo. fold source.
        pose proof (permitted_dec blocks url n (fun x I1 => H x (or_intror I1))) as De. clear - De.
        split; [intros [[X ->]|([[X ->]|[X Y]] & Z)]; auto; right; tauto|].
        intros [[[X|X] ->]|(X & Y)]; [destruct De as [D|D]; [auto|right; auto]|auto|right; tauto].
  Qed.
  Lemma blocks_stop : forall blocks st, (exists b, In b blocks /\ stops b) -> apply_blocks blocks st = None.
  Proof.
    induction blocks as [|b blocks IH]; intros st (x & I1 & X); [destruct I1|]. cbn [ModelOverrides.apply_blocks].
    destruct (parse b) as [c|] eqn:P; [|reflexivity]. apply IH. destruct I1 as [<-|I1]; [|now exists x].
    apply (parse_stops space lower py_net py_net_strict bigint urlparse) in X. congruence.
  Qed.
  Lemma blocks_app : forall a b st, apply_blocks (a ++ b) st = match apply_blocks a st with Some st' => apply_blocks b st' | None => None end.
  Proof. induction a as [|x a IH]; intros b st; cbn [app ModelOverrides.apply_blocks]; [reflexivity|]. destruct (parse x); [apply IH|reflexivity]. Qed.
  Definition all_blocks (files : list (list (list N))) : list (list cstr) := concat (map (iterate_over_blocks space decode) files).
  Lemma files_blocks : forall files st, apply_files decode space lower py_net py_net_strict bigint urlparse files st = apply_blocks (all_blocks files) st.
  Proof.
    unfold all_blocks. induction files as [|f files IH]; intros st; cbn [apply_files map concat]; [reflexivity|].
    rewrite blocks_app. destruct (apply_blocks (iterate_over_blocks space decode f) st); [apply IH|reflexivity].
  Qed.
  Lemma overrides_updated : forall files st, geo_wf (ov_geo st) ->
    let blocks := concat (map (iterate_over_blocks space decode) files) in
    (forall b, In b blocks -> ~ stops b) ->
    exists st', update_overrides decode space lower py_net py_net_strict bigint urlparse files st = Some st' /\
      NoDup (map fst (ov_networks st')) /\ (forall n a, In (n, a) (ov_networks st') <-> first_says (wants_net space lower py_net) blocks n a) /\
      NoDup (map fst (ov_autnums st')) /\
      (forall z x, In (z, x) (ov_autnums st') <-> first_says (fun b z x => wants_as space lower bigint b z (fst x) (snd x)) blocks z x) /\
      geo_wf (ov_geo st') /\ known_feeds (ov_geo st) (ov_geo st') (fun url => exists b n, In b blocks /\ wants_feed b url n) /\
      forall n url s, In (n, url, s) (ov_links st') <-> permits (ov_links st) (fun url n => exists b, In b blocks /\ wants_feed b url n) n url s.
  Proof.
    intros files st W blocks H. unfold update_overrides. rewrite files_blocks. fold (all_blocks files) in blocks. fold blocks.
    set (st0 := mkOv [] [] (ov_geo st) _). destruct (blocks_applied blocks st0 H W) as (st' & E1 & E2 & E3 & E4 & E5 & E6).
    exists st'. split; [exact E1|]. cbn [st0 ov_networks ov_autnums ov_geo ov_links] in E2, E3, E5, E6.
    assert (Nd : forall K A, NoDup (map fst (@nil (K * A)))) by (intros; constructor).
    split; [rewrite E2; apply (keeps_nodup pnet_eqb pnet_eqb_eq), Nd|]. split.
    { intros n a. rewrite E2, (keeps_in pnet_eqb pnet_eqb_eq). rewrite (first_says_iff (selects net_of) (wants_net space lower py_net)).
      - split; [intros [[]|(_ & X)]; exact X|intros X; right; split; [intros (? & [])|exact X]].
      - intros b k x I1. unfold selects, net_of. rewrite <- (parse_net space lower py_net py_net_strict bigint urlparse b k x (H b I1)).
        destruct (parse b) as [[m y|z name y|u l|]|]; split; intros X; try discriminate; congruence. }
    split; [rewrite E3; apply (keeps_nodup Z.eqb Z.eqb_eq), Nd|]. split.
    { intros z x. rewrite E3, (keeps_in Z.eqb Z.eqb_eq). rewrite (first_says_iff (selects as_of) as_block).
      - split; [intros [[]|(_ & X)]; exact X|intros X; right; split; [intros (? & [])|exact X]].
      - intros b k [name y] I1. unfold selects, as_of, as_block. cbn [fst snd].
        rewrite <- (parse_as space lower py_net py_net_strict bigint urlparse b k name y (H b I1)).
        destruct (parse b) as [[m y'|z' name' y'|u l|]|]; split; intros X; try discriminate; congruence. }
    split; [exact E4|]. split.
    { apply (known_iff _ _ (fun url => exists n, permitted blocks url n)); [|exact E5].
      intros u. split; [intros (n & b & I1 & X); now exists b, n|intros (b & n & I1 & X); exists n; now exists b]. }
    intros n url s. rewrite E6. unfold permits. fold (permitted blocks url n). rewrite filter_In. cbn [snd].
    assert (Q : negb (cstr_eqb s (txt "overrides")) = true <-> s <> txt "overrides").
    { rewrite negb_true_iff. split; [apply eqb_neq|]. intros X. destruct (cstr_eqb s (txt "overrides")) eqn:E; [|reflexivity]. apply cstr_eqb_eq in E. contradiction. }
    unfold source. rewrite Q. tauto.
  Qed.
  Lemma overrides_stopped : forall files st, (exists b, In b (concat (map (iterate_over_blocks space decode) files)) /\ stops b) ->
    update_overrides decode space lower py_net py_net_strict bigint urlparse files st = None.
  Proof. intros files st H. unfold update_overrides. rewrite files_blocks. now apply blocks_stop. Qed.
End Update.

(** ** Countries *)
Section Countries.
  Variable space : N -> bool.
  Definition unspaced (s : cstr) : Prop := Forall (fun c => space c = false) s.
  Definition breaks (s : cstr) : Prop := forall c x, s = c :: x -> space c = true.
  Lemma token_spec : forall s x y, token space s = (x, y) <-> s = x ++ y /\ unspaced x /\ breaks y.
  Proof.
    induction s as [|c s IH]; intros x y; cbn [token].
    - split; [intros E; injection E as <- <-; split; [reflexivity|]; split; [constructor|intros ? ? ?; discriminate]|].
      intros (E & _ & _). symmetry in E. apply app_eq_nil in E as [-> ->]. reflexivity.
    - destruct (space c) eqn:C.
      + split; [intros E; injection E as <- <-; split; [reflexivity|]; split; [constructor|]; intros ? ? E; injection E as <- <-; exact C|].
        intros (E & F & B). destruct x as [|d x]; [cbn [app] in E; now rewrite E|]. cbn [app] in E. injection E as <- ->.
        apply Forall_cons_iff in F as [F _]. congruence.
      + destruct (token space s) as [x1 y1] eqn:T. destruct (proj1 (IH x1 y1) eq_refl) as (E1 & F1 & B1). split.
        * intros E. injection E as <- <-. split; [cbn [app]; now rewrite E1|]. split; [now constructor|exact B1].
        * intros (E & F & B). destruct x as [|d x].
          -- cbn [app] in E. subst y. specialize (B c s eq_refl). congruence.
          -- cbn [app] in E. injection E as <- E. apply Forall_cons_iff in F as [_ F].
             assert (X : (x1, y1) = (x, y)) by (apply IH; auto). congruence.
  Qed.
  Lemma cons_eq : forall (x y : cstr) l m, x :: l = y :: m -> x = y /\ l = m.
  Proof. intros x y l m H. now injection H. Qed.
  Lemma words_next : forall n s c x, lstrip space s = c :: x ->
    split_words space (S n) s = let (w, y) := token space (c :: x) in w :: split_words space n y.
  Proof. intros n s c x E. cbn [split_words]. rewrite E. reflexivity. Qed.
  Lemma words_none : forall n s, lstrip space s = [] -> split_words space n s = [].
  Proof. intros n s E. destruct n; cbn [split_words]; now rewrite E. Qed.
  Lemma words_last : forall s c x, lstrip space s = c :: x -> split_words space 0 s = [c :: x].
  Proof. intros s c x E. cbn [split_words]. now rewrite E. Qed.
  Lemma words3 : forall s code continent name, split_words space 2 s = [code; continent; name] <->
    exists a b c, s = a ++ code ++ b ++ continent ++ c ++ name /\ spaces space a /\ spaces space b /\ b <> [] /\ spaces space c /\ c <> [] /\
      word_of space code /\ word_of space continent /\ name <> [] /\ (forall x e, name = x :: e -> space x = false).
  Proof.
    assert (Gap : forall y, breaks y -> lstrip space y <> [] -> exists b, y = b ++ lstrip space y /\ spaces space b /\ b <> []).
    { intros y B N0. destruct (lstrip_spec space y) as (b & E & Sb & H). exists b. split; [exact E|]. split; [exact Sb|]. intros ->. cbn [app] in E.
      destruct (lstrip space y) as [|c x] eqn:L; [contradiction|]. specialize (H c x eq_refl). rewrite E in B. specialize (B c x eq_refl). congruence. }
    intros s code continent name. split.
    - intros H. destruct (lstrip_spec space s) as (a & Ea & Sa & Ha).
      destruct (lstrip space s) as [|c0 s1] eqn:L0; [rewrite (words_none _ _ L0) in H; discriminate|]. rewrite (words_next _ _ _ _ L0) in H.
      destruct (token space (c0 :: s1)) as [x y] eqn:T1. apply token_spec in T1 as (E1 & F1 & B1). apply cons_eq in H as [-> H].
      destruct (lstrip space y) as [|c1 s2] eqn:L1; [rewrite (words_none _ _ L1) in H; discriminate|]. rewrite (words_next _ _ _ _ L1) in H.
      destruct (Gap y B1) as (b & Eb & Sb & Nb); [congruence|]. rewrite L1 in Eb.
      destruct (lstrip_spec space y) as (b' & _ & _ & Hb). rewrite L1 in Hb.
      destruct (token space (c1 :: s2)) as [x2 y2] eqn:T2. apply token_spec in T2 as (E2 & F2 & B2). apply cons_eq in H as [-> H].
      destruct (lstrip space y2) as [|c2 s3] eqn:L2; [rewrite (words_none _ _ L2) in H; discriminate|]. rewrite (words_last _ _ _ L2) in H. injection H as <-.
      destruct (Gap y2 B2) as (c & Ec & Sc & Nc); [congruence|]. rewrite L2 in Ec.
      destruct (lstrip_spec space y2) as (c' & _ & _ & Hc). rewrite L2 in Hc.
      exists a, b, c. split; [rewrite Ea, E1, Eb, E2, Ec; reflexivity|].
      split; [exact Sa|]. split; [exact Sb|]. split; [exact Nb|]. split; [exact Sc|]. split; [exact Nc|].
      split; [|split; [|split; [discriminate|exact Hc]]].
      + split; [|exact F1]. intros ->. cbn [app] in E1. specialize (Ha c0 s1 eq_refl). specialize (B1 c0 s1 (eq_sym E1)). congruence.
      + split; [|exact F2]. intros ->. cbn [app] in E2. specialize (Hb c1 s2 eq_refl). specialize (B2 c1 s2 (eq_sym E2)). congruence.
    - intros (a & b & c & -> & Sa & Sb & Nb & Sc & Nc & (N1 & W1) & (N2 & W2) & N3 & Hn).
      assert (Br : forall b x, spaces space b -> b <> [] -> breaks (b ++ x)).
      { intros b0 x F N0 d e E. destruct b0 as [|d0 b0]; [contradiction|]. cbn [app] in E. injection E as <- _. now apply Forall_cons_iff in F as [F _]. }
      assert (Hd : forall w x c0 e, w <> [] -> unspaced w -> w ++ x = c0 :: e -> space c0 = false).
      { intros w x c0 e N0 F E. destruct w as [|d w]; [contradiction|]. cbn [app] in E. injection E as <- _. now apply Forall_cons_iff in F as [F _]. }
      assert (L0 : lstrip space (a ++ code ++ b ++ continent ++ c ++ name) = code ++ b ++ continent ++ c ++ name)
        by (apply lstrip_start; [exact Sa|]; intros c0 e; now apply Hd).
      assert (L1 : lstrip space (b ++ continent ++ c ++ name) = continent ++ c ++ name) by (apply lstrip_start; [exact Sb|]; intros c0 e; now apply Hd).
      assert (L2 : lstrip space (c ++ name) = name) by (now apply lstrip_start).
      destruct (code ++ b ++ continent ++ c ++ name) as [|c0 s0] eqn:E0; [apply app_eq_nil in E0 as [-> _]; contradiction|].
      rewrite (words_next _ _ _ _ L0), <- E0.
      rewrite (proj2 (token_spec _ code (b ++ continent ++ c ++ name))) by (split; [reflexivity|split; [exact W1|now apply Br]]). f_equal.
      destruct (continent ++ c ++ name) as [|c1 s1] eqn:E1; [apply app_eq_nil in E1 as [-> _]; contradiction|].
      rewrite (words_next _ _ _ _ L1), <- E1.
      rewrite (proj2 (token_spec _ continent (c ++ name))) by (split; [reflexivity|split; [exact W2|now apply Br]]). f_equal.
      destruct name as [|c2 s2]; [contradiction|]. apply (words_last _ _ _ L2).
  Qed.
  Definition clean (code continent name : cstr) : Prop := ~ In 0 code /\ ~ In 0 continent /\ ~ In 0 name.
  Lemma starts_app : forall h a code x, code <> [] -> starts_with h (a ++ code ++ x) = starts_with h (a ++ code).
  Proof. intros h a code x N0. destruct a; [|reflexivity]. destruct code; [contradiction|reflexivity]. Qed.
  Lemma entry_split : forall line code continent name, country_entry space line code continent name <->
    starts_with HASH (rstrip space line) = false /\ split_words space 2 (rstrip space line) = [code; continent; name].
  Proof.
    intros line code continent name. rewrite words3. split.
    - intros (a & b & c & d & -> & Sa & Sb & Nb & Sc & Nc & Sd & W1 & W2 & N3 & Hn & Hl & Hh).
      assert (R : rstrip space (a ++ code ++ b ++ continent ++ c ++ name ++ d) = a ++ code ++ b ++ continent ++ c ++ name).
      { apply rstrip_iff. exists d. split; [now rewrite <- !app_assoc|]. split; [exact Sd|].
        intros x e E. destruct (exists_last N3) as (n0 & e0 & ->). rewrite !app_assoc in E. apply app_inj_tail in E as [_ <-]. now apply (Hl n0). }
      rewrite R. split; [rewrite starts_app; [exact Hh|apply W1]|]. exists a, b, c. repeat (apply conj; [first [reflexivity|assumption]|]). exact Hn.
    - intros (Hh & a & b & c & E & Sa & Sb & Nb & Sc & Nc & W1 & W2 & N3 & Hn). destruct (rstrip_spec space line) as (d & El & Sd & Ll).
      exists a, b, c, d. split; [rewrite El, E; now rewrite <- !app_assoc|].
      repeat (apply conj; [assumption|]). apply conj; [intros e x X; apply (Ll (a ++ code ++ b ++ continent ++ c ++ e)); rewrite E, X; now rewrite <- !app_assoc|].
      rewrite E, starts_app in Hh; [exact Hh|apply W1].
  Qed.
  Lemma country_row : forall line code continent name, country_line space line = Row (code, (continent, name)) <->
    country_entry space line code continent name /\ clean code continent name.
  Proof.
    intros line code continent name. rewrite entry_split. unfold country_line, clean. split.
    - destruct (starts_with HASH _); [discriminate|]. destruct (split_words space 2 _) as [|x [|y [|z [|? ?]]]]; try discriminate.
      destruct (has_nul x || has_nul y || has_nul z) eqn:E; [discriminate|]. intros H. injection H as <- <- <-.
      apply orb_false_iff in E as [E E3]. apply orb_false_iff in E as [E1 E2]. split; [auto|]. split; [|split]; now apply has_nul_iff.
    - intros ((-> & ->) & H1 & H2 & H3). apply has_nul_iff in H1, H2, H3. now rewrite H1, H2, H3.
  Qed.
  Lemma country_raised : forall line, country_line space line = Raised <-> exists code continent name,
    country_entry space line code continent name /\ ~ clean code continent name.
  Proof.
    intros line. split.
    - unfold country_line. destruct (starts_with HASH _) eqn:Hs; [discriminate|]. destruct (split_words space 2 _) as [|x [|y [|z [|? ?]]]] eqn:Sp; try discriminate.
      destruct (has_nul x || has_nul y || has_nul z) eqn:E; [|discriminate]. intros _. exists x, y, z. split; [apply entry_split; auto|].
      intros (H1 & H2 & H3). apply has_nul_iff in H1, H2, H3. rewrite H1, H2, H3 in E. discriminate.
    - intros (x & y & z & H & N0). apply entry_split in H as [Hs Sp]. unfold country_line. rewrite Hs, Sp.
      destruct (has_nul x || has_nul y || has_nul z) eqn:E; [reflexivity|]. exfalso. apply N0.
      apply orb_false_iff in E as [E E3]. apply orb_false_iff in E as [E1 E2]. split; [|split]; now apply has_nul_iff.
  Qed.
  Definition row_of (line : cstr) : option (cstr * (cstr * cstr)) := match country_line space line with Row r => Some r | _ => None end.
  Lemma country_lines_keeps : forall lines t, (forall l, In l lines -> country_line space l <> Raised) ->
    country_lines space lines t = Some (keeps cstr_eqb row_of lines t).
  Proof.
    induction lines as [|l lines IH]; intros t H; cbn [country_lines]; [reflexivity|]. unfold keeps. cbn [fold_left]. unfold row_of at 2.
    pose proof (H l (or_introl eq_refl)) as R. destruct (country_line space l) as [[k a]| |]; [| |contradiction]; apply IH; intros x I1; apply H; now right.
  Qed.
  Lemma countries_imported : forall files,
    (forall l code continent name, In l (concat files) -> country_entry space l code continent name -> clean code continent name) ->
    exists t, import_countries space files = Some t /\ NoDup (map fst t) /\
      forall code x, In (code, x) t <-> first_says (fun l code x => country_entry space l code (fst x) (snd x)) (concat files) code x.
  Proof.
    intros files H. assert (Q : forall l, In l (concat files) -> country_line space l <> Raised).
    { intros l I1 R. apply country_raised in R as (x & y & z & E & N0). apply N0. now apply (H l). }
    exists (keeps cstr_eqb row_of (concat files) []). split; [now apply country_lines_keeps|].
    split; [apply (keeps_nodup cstr_eqb cstr_eqb_eq); constructor|].
    intros code x. rewrite (keeps_in cstr_eqb cstr_eqb_eq).
    rewrite (first_says_iff (selects row_of) (fun l code x => country_entry space l code (fst x) (snd x))).
    - split; [intros [[]|(_ & X)]; exact X|intros X; right; split; [intros (? & [])|exact X]].
    - intros l k [y z] I1. unfold selects, row_of. cbn [fst snd]. pose proof (country_row l k y z) as R. destruct (country_line space l) as [r| |].
      + split; [intros E; injection E as ->; now apply R|]. intros E. pose proof (H l k y z I1 E) as C. assert (X : Row r = Row (k, (y, z))) by (now apply R). congruence.
      + split; [discriminate|]. intros E. pose proof (H l k y z I1 E) as C. assert (X : Skipped = Row (k, (y, z))) by (now apply R). discriminate.
      + split; [discriminate|]. intros E. pose proof (H l k y z I1 E) as C. assert (X : Raised = Row (k, (y, z))) by (now apply R). discriminate.
  Qed.
End Countries.
