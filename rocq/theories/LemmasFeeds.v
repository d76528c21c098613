(** Proofs about feeds *)
From Coq Require Import String.
From Coq Require Import NArith ZArith List Bool Permutation Lia ZifyBool ZifyNat ZifyN.
From Verif Require Import Base ModelCountryCode ModelStringPool SpecText LemmasStringPool ModelImport SpecImport LemmasImport
  LemmasImportTable ModelCompile ModelGeofeed SpecGeofeed LemmasGeofeed ModelOverrides SpecOverrides LemmasOverrides ModelFeeds SpecFeeds.
Import ListNotations.
Open Scope N_scope.

(** ** Objects *)
Lemma eqb_refl : forall s, cstr_eqb s s = true.
Proof. intros s. now apply cstr_eqb_eq. Qed.
Lemma member_or_has : forall l key d v, has_member l key v -> member_or l key d = v.
Proof.
  intros l key d v (x & y & -> & N0). induction x as [|[k w] x IH]; cbn [app member_or]; [now rewrite eqb_refl|].
  destruct (cstr_eqb k key) eqn:E; [apply cstr_eqb_eq in E as ->; exfalso; apply (N0 w); now left|]. apply IH. intros u I1. apply (N0 u). now right.
Qed.
Lemma member_or_no : forall l key d, no_member l key -> member_or l key d = d.
Proof.
  induction l as [|[k w] l IH]; intros key d N0; cbn [member_or]; [reflexivity|].
  destruct (cstr_eqb k key) eqn:E; [apply cstr_eqb_eq in E as ->; exfalso; apply (N0 w); now left|]. apply IH. intros u I1. apply (N0 u). now right.
Qed.
Lemma member_cases : forall l key, no_member l key \/ exists v, has_member l key v.
Proof.
  induction l as [|[k w] l IH]; intros key; [left; intros w []|]. destruct (cstr_eqb k key) eqn:E.
  - apply cstr_eqb_eq in E as ->. right. exists w, [], l. split; [reflexivity|intros ? []].
  - apply eqb_neq in E. destruct (IH key) as [N0|(v & x & y & -> & N0)].
    + left. intros u [I1|I1]; [congruence|now apply (N0 u)].
    + right. exists v, ((k, w) :: x), y. split; [reflexivity|]. intros u [I1|I1]; [congruence|now apply (N0 u)].
Qed.
Lemma member_is : forall l key, member l key = member_or l key JNull.
Proof. induction l as [|[k v] l IH]; intros key; cbn [member member_or]; [reflexivity|]. now rewrite IH. Qed.
Lemma member_iff : forall l key v, get_member l key v <-> member l key = v.
Proof.
  intros l key v. rewrite member_is. split.
  - intros [H|(H & ->)]; [now apply member_or_has|now apply member_or_no].
  - intros <-. destruct (member_cases l key) as [H|(v & H)]; [right; split; [exact H|now apply member_or_no]|left].
    now rewrite (member_or_has _ _ _ _ H).
Qed.
Lemma has_iff : forall l key v, v <> JNull -> (has_member l key v <-> member l key = v).
Proof.
  intros l key v N0. rewrite <- member_iff. split; [now left|]. intros [H|(_ & H)]; [exact H|contradiction].
Qed.
Lemma falsy_iff : forall j, true_ish j = false <-> falsy j.
Proof.
  intros j. unfold falsy. split.
  - destruct j as [|[]|z|[|c s]|[|x l]|[|x l]]; cbn [true_ish length Nat.eqb negb]; intros H; try discriminate; auto 7.
    do 2 right. left. f_equal. lia.
  - intros [-> | [-> | [-> | [-> | [-> | ->]]]]]; reflexivity.
Qed.

(** ** Rows that may be inserted once *)
Section Once.
  Context {K : Type}.
  Variable eqb : K -> K -> bool.
  Hypothesis eqb_iff : forall a b, eqb a b = true <-> a = b.
  Variable f : list N -> imported K.
  Variable a0 : attrs.
  Fixpoint once (lines : list (list N)) (t : list (K * attrs)) : option (list (K * attrs)) :=
    match lines with
    | [] => Some t
    | l :: lines' => match f l with
                     | Raised => None
                     | Skipped => once lines' t
                     | Row k => if existsb (fun r => eqb (fst r) k) t then None else once lines' (t ++ [(k, a0)])
                     end
    end.
  Definition rows (l : list N) (k : K) : Prop := f l = Row k.
  Lemma twice_cons : forall l lines, never_twice rows (l :: lines) <->
    never_twice rows lines /\ forall k l', rows l k -> In l' lines -> ~ rows l' k.
  Proof.
    intros l lines. split.
    - intros H. split.
      + intros x m y m' z k ->. exact (H (l :: x) m y m' z k eq_refl).
      + intros k l' R I1. apply in_split in I1 as (y & z & ->). exact (H [] l y l' z k eq_refl R).
    - intros (H & N0) [|x0 x] m y m' z k E.
      + cbn [app] in E. injection E as -> ->. intros R. apply (N0 k m' R). apply in_or_app. right. now left.
      + cbn [app] in E. injection E as -> ->. exact (H x m y m' z k eq_refl).
  Qed.
  Lemma once_some : forall lines t t', once lines t = Some t' ->
    (forall l, In l lines -> f l <> Raised) /\ never_twice rows lines /\ (forall l k a, In l lines -> rows l k -> ~ In (k, a) t) /\
    (forall k a, In (k, a) t' <-> In (k, a) t \/ ((exists l, In l lines /\ rows l k) /\ a = a0)) /\ (NoDup (map fst t) -> NoDup (map fst t')).
  Proof.
    induction lines as [|l lines IH]; intros t t' H; cbn [once] in H.
    - injection H as <-. split; [intros ? []|]. split; [intros [|? ?] ? ? ? ? ? E; discriminate|]. split; [intros ? ? ? []|].
      split; [|auto]. intros k a. split; [now left|]. intros [H|((l & [] & _) & _)]. exact H.
    - destruct (f l) as [k0| |] eqn:F; [| |discriminate].
      + destruct (existsb (fun r => eqb (fst r) k0) t) eqn:E; [discriminate|].
        assert (Nk : forall a, ~ In (k0, a) t).
        { intros a I1. assert (existsb (fun r => eqb (fst r) k0) t = true); [|congruence]. apply (has_key eqb eqb_iff). now exists a. }
        destruct (IH _ _ H) as (H1 & H2 & H3 & H4 & H5).
        split; [intros m [<-|I1]; [congruence|auto]|]. split.
        { apply twice_cons. split; [exact H2|]. intros k l' R I1 R'. unfold rows in R. rewrite F in R. injection R as <-.
          apply (H3 l' k0 a0 I1 R'). apply in_or_app. right. now left. }
        split.
        { intros m k a [<-|I1] R; [unfold rows in R; rewrite F in R; injection R as <-; apply Nk|]. intros I2. apply (H3 m k a I1 R). apply in_or_app. now left. }
        split.
        { intros k a. rewrite H4, in_app_iff. cbn [In]. split.
          - intros [[I1|[I1|[]]]|((m & I1 & R) & ->)]; [now left|injection I1 as <- <-; right; split; [exists l; split; [now left|exact F]|reflexivity]|].
            right. split; [exists m; split; [now right|exact R]|reflexivity].
          - intros [I1|((m & [<-|I1] & R) & ->)]; [left; now left| |right; split; [now exists m|reflexivity]].
            unfold rows in R. rewrite F in R. injection R as <-. left. right. now left. }
        intros D. apply H5. rewrite map_app. cbn [map fst]. apply (Permutation_NoDup (l := k0 :: map fst t)); [apply Permutation_cons_append|].
        constructor; [|exact D]. intros I1. apply in_map_iff in I1 as ((k & a) & X & I1). cbn [fst] in X. subst k. exact (Nk a I1).
      + destruct (IH _ _ H) as (H1 & H2 & H3 & H4 & H5).
        assert (Nr : forall k, ~ rows l k) by (intros k R; unfold rows in R; congruence).
        split; [intros m [<-|I1]; [congruence|auto]|]. split; [apply twice_cons; split; [exact H2|]; intros k l' R; now apply Nr in R|].
        split; [intros m k a [<-|I1] R; [now apply Nr in R|now apply (H3 m)]|]. split; [|exact H5].
        intros k a. rewrite H4. split; (intros [I1|((m & I1 & R) & ->)]; [now left|right; split; [|reflexivity]]).
        * exists m. split; [now right|exact R].
        * destruct I1 as [<-|I1]; [now apply Nr in R|now exists m].
  Qed.
  Lemma once_none : forall lines t, (forall l, In l lines -> f l <> Raised) -> never_twice rows lines ->
    (forall l k a, In l lines -> rows l k -> ~ In (k, a) t) -> once lines t <> None.
  Proof.
    induction lines as [|l lines IH]; intros t H1 H2 H3; cbn [once]; [discriminate|]. apply twice_cons in H2 as [H2 H4].
    pose proof (H1 l (or_introl eq_refl)) as R. destruct (f l) as [k0| |] eqn:F; [| |contradiction].
    - destruct (existsb (fun r => eqb (fst r) k0) t) eqn:E.
      + exfalso. apply (has_key eqb eqb_iff) in E as (a & I1). exact (H3 l k0 a (or_introl eq_refl) F I1).
      + apply IH; [intros m I1; apply H1; now right|exact H2|]. intros m k a I1 R'. rewrite in_app_iff. cbn [In]. intros [I2|[I2|[]]].
        * exact (H3 m k a (or_intror I1) R' I2).
        * injection I2 as <- <-. exact (H4 k0 m F I1 R').
    - apply IH; [intros m I1; apply H1; now right|exact H2|]. intros m k a I1. apply H3. now right.
  Qed.
End Once.
Lemma never_twice_iff : forall {K} (P Q : list N -> K -> Prop) lines, (forall l k, P l k <-> Q l k) -> (never_twice P lines <-> never_twice Q lines).
Proof. intros K P Q lines H. split; intros T x l y l' z k E Hp Hq; apply (T x l y l' z k E); now apply H. Qed.

Section Feeds.
  Variable decode : list N -> option cstr.
  Variable space : N -> bool.
  Variable py_net : cstr -> option pnet.
  Variable py_net_int : Z -> option pnet.
  Variables is_global is_unspecified : pnet -> bool.
  Variable py_json : cstr -> option json.
  Variable py_json_file : list (list N) -> option json.
  Variable web : cstr -> option (list (list N)).
  Notation acceptable := (acceptable is_global is_unspecified).

  Lemma check_iff : forall n, check_parsed_network is_global is_unspecified n = true <-> acceptable n.
  Proof.
    intros n. unfold check_parsed_network, SpecFeeds.acceptable. destruct (is_global n); cbn [negb]; [|split; [discriminate|intros (H & _); discriminate]].
    destruct (is_unspecified n); [split; [discriminate|intros (_ & H & _); discriminate]|].
    destruct ((p_bits n =? 128) && (p_len n <? 10)) eqn:E1; [split; [discriminate|intros (_ & _ & H & _); lia]|].
    destruct ((p_bits n =? 32) && (p_len n <? 7)) eqn:E2; [split; [discriminate|intros (_ & _ & _ & H); lia]|].
    split; [intros _; repeat split; lia|reflexivity].
  Qed.

  (** *** ASNDROP *)
  Lemma asn_iff : forall z, check_parsed_asn z = true <-> public_asn z.
  Proof. intros z. unfold check_parsed_asn, valid_asn_ranges, public_asn. cbn [existsb fst snd]. lia. Qed.
  Lemma about_iff2 : forall m, match member m (txt "type") with JStr s => cstr_eqb s (txt "metadata") | _ => false end = true <-> about_list m.
  Proof.
    intros m. unfold about_list. rewrite has_iff by discriminate. split.
    - destruct (member m (txt "type")); try discriminate. intros E. apply cstr_eqb_eq in E. now rewrite E.
    - intros ->. apply eqb_refl.
  Qed.
  Notation asndrop_line := (asndrop_line decode py_json).
  Notation asn_is := (asn_is decode py_json).
  Notation asn_readable := (asn_readable decode py_json).
  Lemma asndrop_row : forall l z, asndrop_line l = Row z <-> asn_is l z.
  Proof.
    intros l z. unfold ModelFeeds.asndrop_line, SpecFeeds.asn_is, object_of. split.
    - destruct (decode l) as [text|] eqn:D; [|discriminate]. destruct (py_json text) as [[| | | | |m]|] eqn:J; try discriminate.
      destruct (match member m (txt "type") with JStr s => _ | _ => false end) eqn:T; [discriminate|].
      intros H. exists m. split; [now exists text|]. split; [intros A; apply about_iff2 in A; congruence|].
      destruct (member m (txt "asn")) as [|b|y|s|x|x] eqn:M; try (destruct (true_ish _); discriminate).
      destruct (y =? 0)%Z; [discriminate|]. destruct (check_parsed_asn y) eqn:C; [|discriminate]. injection H as ->.
      split; [apply has_iff; [discriminate|exact M]|now apply asn_iff].
    - intros (m & (text & -> & ->) & A & H & P). destruct (match member m (txt "type") with JStr s => _ | _ => false end) eqn:T; [apply about_iff2 in T; contradiction|].
      apply has_iff in H; [|discriminate]. rewrite H. pose proof P as P'. apply asn_iff in P' as ->.
      replace (z =? 0)%Z with false; [reflexivity|]. unfold public_asn in P. lia.
  Qed.
  Lemma asndrop_read : forall l, asndrop_line l <> Raised <-> asn_readable l.
  Proof.
    intros l. unfold ModelFeeds.asndrop_line, SpecFeeds.asn_readable. split.
    - intros H. destruct (decode l) as [text|] eqn:D; [|contradiction]. exists text. split; [reflexivity|]. intros j E. rewrite E in H.
      destruct j as [| | | | |m]; try contradiction. exists m. split; [reflexivity|].
      destruct (match member m (txt "type") with JStr s => _ | _ => false end) eqn:T; [left; now apply about_iff2|right].
      exists (member m (txt "asn")). split; [now apply member_iff|].
      destruct (true_ish (member m (txt "asn"))) eqn:Tr; [|left; now apply falsy_iff].
      destruct (member m (txt "asn")) as [|b|y|s|x|x]; try (rewrite Tr in H; now contradiction H); try discriminate. right. now exists y.
    - intros (text & -> & H). destruct (py_json text) as [j|]; [|discriminate]. destruct (H j eq_refl) as (m & -> & X).
      destruct (match member m (txt "type") with JStr s => _ | _ => false end) eqn:T; [discriminate|].
      destruct X as [A|(v & M & X)]; [apply about_iff2 in A; congruence|]. apply member_iff in M. rewrite M.
      destruct X as [F|(z & ->)].
      + apply falsy_iff in F. destruct v as [|b|y|s|x|x]; try (rewrite F; discriminate). cbn [true_ish] in F. destruct (y =? 0)%Z; discriminate.
      + destruct (z =? 0)%Z; [discriminate|]. destruct (check_parsed_asn z); discriminate.
  Qed.
  Lemma asndrop_once : forall lines t, asndrop_lines decode py_json lines t = once Z.eqb asndrop_line dropped lines t.
  Proof. induction lines as [|l lines IH]; intros t; cbn [asndrop_lines once]; [reflexivity|]. destruct (asndrop_line l); rewrite ?IH; reflexivity. Qed.

  (** *** DROP *)
  Definition drop_line (l : list N) : imported pnet :=
    match decode l with
    | None => Raised
    | Some line => match fst (partition SEMICOLON line) with
                   | [] => Skipped
                   | line => match py_net (strip space line) with
                             | None => Skipped
                             | Some n => if negb (check_parsed_network is_global is_unspecified n) then Skipped else Row n
                             end
                   end
    end.
  Definition drop_seen (l : list N) : bool :=
    match decode l with Some line => match fst (partition SEMICOLON line) with [] => false | _ => true end | None => false end.
  Notation drop_lines := (drop_lines decode space py_net is_global is_unspecified).
  Notation drop_text := (drop_text decode space).
  Notation drop_net := (drop_net decode space py_net is_global is_unspecified).
  Lemma drop_once : forall lines seen t, drop_lines lines seen t =
    match once pnet_eqb drop_line dropped lines t with Some t' => if seen || existsb drop_seen lines then Some t' else None | None => None end.
  Proof.
    induction lines as [|l lines IH]; intros seen t; cbn [ModelFeeds.drop_lines once existsb]; [now rewrite orb_false_r|].
    unfold drop_line at 1, drop_seen at 1. destruct (decode l) as [line|]; [|reflexivity]. destruct (fst (partition SEMICOLON line)) as [|c body]; [apply IH|].
    assert (S1 : forall b, seen || (true || b) = true || b) by (intros b; destruct seen; reflexivity).
    destruct (py_net (strip space (c :: body))) as [n|]; [|rewrite IH; now rewrite S1].
    destruct (negb _); [rewrite IH; now rewrite S1|]. destruct (existsb (fun r => pnet_eqb (fst r) n) t); [reflexivity|]. rewrite IH. now rewrite S1.
  Qed.
  Lemma body_iff : forall text body, body = fst (partition SEMICOLON text) <->
    exists comment, text = body ++ comment /\ (comment = [] \/ exists c, comment = SEMICOLON :: c) /\ plain SEMICOLON body.
  Proof.
    intros text body. split.
    - intros ->. pose proof (partition_spec SEMICOLON text) as P. destruct (partition SEMICOLON text) as [x [y|]]; destruct P as [-> P]; cbn [fst].
      + exists (SEMICOLON :: y). split; [reflexivity|]. split; [right; now exists y|exact P].
      + exists []. split; [now rewrite app_nil_r|]. split; [now left|exact P].
    - intros (comment & -> & [->|(c & ->)] & P); [rewrite app_nil_r, partition_none by exact P|rewrite partition_plain by exact P]; reflexivity.
  Qed.
  Lemma drop_text_iff : forall l s, drop_text l s <-> exists text, decode l = Some text /\ fst (partition SEMICOLON text) <> [] /\ strip space (fst (partition SEMICOLON text)) = s.
  Proof.
    intros l s. split.
    - intros (text & comment & body & D & E & C & P & N0 & T). exists text. split; [exact D|].
      assert (B : body = fst (partition SEMICOLON text)) by (apply body_iff; now exists comment). rewrite <- B. split; [exact N0|now apply strip_iff].
    - intros (text & D & N0 & E). destruct (proj1 (body_iff text _) eq_refl) as (comment & E2 & C & P).
      exists text, comment, (fst (partition SEMICOLON text)). repeat (apply conj; [assumption|]). now apply strip_iff.
  Qed.
  Lemma drop_row : forall l n, drop_line l = Row n <-> drop_net l n.
  Proof.
    intros l n. unfold drop_line, SpecFeeds.drop_net. split.
    - destruct (decode l) as [text|] eqn:D; [|discriminate]. destruct (fst (partition SEMICOLON text)) as [|c body] eqn:B; [discriminate|].
      destruct (py_net (strip space (c :: body))) as [m|] eqn:P; [|discriminate].
      destruct (check_parsed_network is_global is_unspecified m) eqn:C; cbn [negb]; [|discriminate]. intros E. injection E as ->.
      exists (strip space (c :: body)). split; [|split; [exact P|now apply check_iff]].
      apply drop_text_iff. exists text. rewrite B. split; [exact D|]. split; [discriminate|reflexivity].
    - intros (s & T & P & A). apply drop_text_iff in T as (text & -> & N0 & E). destruct (fst (partition SEMICOLON text)) as [|c body]; [contradiction|].
      rewrite E, P. apply check_iff in A. now rewrite A.
  Qed.
  Lemma drop_raised : forall l, drop_line l <> Raised <-> decode l <> None.
  Proof.
    intros l. unfold drop_line. destruct (decode l) as [text|]; [|split; contradiction]. split; [discriminate|intros _].
    destruct (fst (partition SEMICOLON text)); [discriminate|]. destruct (py_net _); [|discriminate]. destruct (negb _); discriminate.
  Qed.
  Lemma seen_iff : forall l, drop_seen l = true <-> exists s, drop_text l s.
  Proof.
    intros l. unfold drop_seen. split.
    - destruct (decode l) as [text|] eqn:D; [|discriminate]. destruct (fst (partition SEMICOLON text)) as [|c b] eqn:B; [discriminate|]. intros _.
      exists (strip space (c :: b)). apply drop_text_iff. exists text. rewrite B. split; [exact D|]. split; [discriminate|reflexivity].
    - intros (s & T). apply drop_text_iff in T as (text & -> & N0 & _). destruct (fst (partition SEMICOLON text)); [contradiction|reflexivity].
  Qed.
  Lemma imported_drop : forall lines rows, import_drop decode space py_net is_global is_unspecified lines = Some rows ->
    drop_readable decode space py_net is_global is_unspecified lines /\ NoDup (map fst rows) /\
    forall n a, In (n, a) rows <-> (exists l, In l lines /\ drop_net l n) /\ a = dropped.
  Proof.
    intros lines t H. unfold import_drop in H. rewrite drop_once in H. destruct (once pnet_eqb drop_line dropped lines []) as [t'|] eqn:O; [|discriminate].
    cbn [orb] in H. destruct (existsb drop_seen lines) eqn:E; [|discriminate]. injection H as ->.
    destruct (once_some pnet_eqb pnet_eqb_eq _ _ _ _ _ O) as (H1 & H2 & _ & H4 & H5). apply existsb_exists in E as (l & I1 & E). apply seen_iff in E as (s & E).
    split; [|split; [apply H5; constructor|]].
    - split; [intros m I2; now apply drop_raised, H1|]. split; [now exists l, s|]. apply (never_twice_iff (rows drop_line)); [apply drop_row|exact H2].
    - intros n a. rewrite H4. split; [intros [[]|((m & I2 & R) & ->)]|intros ((m & I2 & R) & ->); right]; (split; [|reflexivity]); exists m; (split; [exact I2|now apply drop_row]).
  Qed.
  Lemma not_imported_drop : forall lines, import_drop decode space py_net is_global is_unspecified lines = None ->
    ~ drop_readable decode space py_net is_global is_unspecified lines.
  Proof.
    intros lines H (H1 & (l & s & I1 & T) & H2). unfold import_drop in H. rewrite drop_once in H.
    destruct (once pnet_eqb drop_line dropped lines []) as [t'|] eqn:O.
    - cbn [orb] in H. replace (existsb drop_seen lines) with true in H; [discriminate|]. symmetry. apply existsb_exists. exists l. split; [exact I1|]. apply seen_iff. now exists s.
    - revert O. apply (once_none pnet_eqb pnet_eqb_eq); [intros m I2; now apply drop_raised, H1| |intros ? ? ? ? ? []].
      apply (never_twice_iff (rows drop_line) drop_net); [apply drop_row|exact H2].
  Qed.
  Lemma imported_asndrop : forall lines rows, import_asndrop decode py_json lines = Some rows ->
    (forall l, In l lines -> asn_readable l) /\ never_twice asn_is lines /\ NoDup (map fst rows) /\
    forall z a, In (z, a) rows <-> (exists l, In l lines /\ asn_is l z) /\ a = dropped.
  Proof.
    intros lines t H. unfold import_asndrop in H. rewrite asndrop_once in H.
    destruct (once_some Z.eqb Z.eqb_eq _ _ _ _ _ H) as (H1 & H2 & _ & H4 & H5).
    split; [intros l I1; now apply asndrop_read, H1|]. split; [apply (never_twice_iff (rows asndrop_line)); [apply asndrop_row|exact H2]|].
    split; [apply H5; constructor|].
    intros n a. rewrite H4. split; [intros [[]|((m & I2 & R) & ->)]|intros ((m & I2 & R) & ->); right]; (split; [|reflexivity]); exists m; (split; [exact I2|now apply asndrop_row]).
  Qed.
  Lemma not_imported_asndrop : forall lines, import_asndrop decode py_json lines = None ->
    ~ ((forall l, In l lines -> asn_readable l) /\ never_twice asn_is lines).
  Proof.
    intros lines H (H1 & H2). unfold import_asndrop in H. rewrite asndrop_once in H. revert H.
    apply (once_none Z.eqb Z.eqb_eq); [intros m I2; now apply asndrop_read, H1| |intros ? ? ? ? ? []].
    apply (never_twice_iff (rows asndrop_line) asn_is); [apply asndrop_row|exact H2].
  Qed.

  (** *** AWS *)
  Notation aws_prefix := (aws_prefix py_net py_net_int is_global is_unspecified).
  Notation aws_entry := (aws_entry py_net py_net_int is_global is_unspecified).
  Notation aws_readable := (aws_readable py_net py_net_int is_global is_unspecified).
  Notation prefix_net := (prefix_net py_net py_net_int).
  Lemma lookup_in : forall m region cc, lookup m region = Some cc -> In (region, cc) m.
  Proof.
    induction m as [|[k v] m IH]; intros region cc H; cbn [lookup] in H; [discriminate|]. destruct (cstr_eqb k region) eqn:E; [|right; auto].
    apply cstr_eqb_eq in E. left. congruence.
  Qed.
  Lemma lookup_none : forall m region cc, lookup m region = None -> ~ In (region, cc) m.
  Proof.
    induction m as [|[k v] m IH]; intros region cc H; cbn [lookup] in H; [intros []|]. destruct (cstr_eqb k region) eqn:E; [discriminate|].
    apply eqb_neq in E. intros [X|X]; [congruence|now apply (IH region cc)].
  Qed.
  Lemma map_sound : forall region cc, In (region, cc) aws_region_country_map ->
    lookup aws_region_country_map region = Some cc /\ region <> txt "GLOBAL" /\ starts (txt "us-") region = false /\ starts (txt "cn-") region = false.
  Proof.
    assert (X : forallb (fun r => match lookup aws_region_country_map (fst r) with Some c => cstr_eqb c (snd r) | None => false end &&
      negb (cstr_eqb (fst r) (txt "GLOBAL")) && negb (starts (txt "us-") (fst r)) && negb (starts (txt "cn-") (fst r))) aws_region_country_map = true) by (vm_compute; reflexivity).
    intros region cc H. rewrite forallb_forall in X. apply X in H. cbn [fst snd] in H. rewrite !andb_true_iff, !negb_true_iff in H.
    destruct H as (((H1 & H2) & H3) & H4). destruct (lookup aws_region_country_map region) as [c|]; [|discriminate]. apply cstr_eqb_eq in H1. subst c.
    split; [reflexivity|]. split; [now apply eqb_neq|auto].
  Qed.
  Lemma starts_iff : forall p s, starts p s = true <-> exists x, s = p ++ x.
  Proof.
    intros p s. unfold starts. split.
    - intros H. apply cstr_eqb_eq in H. exists (skipn (length p) s). rewrite <- H at 1. symmetry. apply firstn_skipn.
    - intros (x & ->). rewrite firstn_app, Nat.sub_diag, firstn_all. cbn [firstn]. rewrite app_nil_r. apply eqb_refl.
  Qed.
  Definition region_row (region : cstr) : option (option cstr * bool) :=
    match lookup aws_region_country_map region with
    | Some cc => Some (Some cc, false)
    | None => if cstr_eqb region (txt "GLOBAL") then Some (None, true)
              else if starts (txt "us-") region then Some (Some (txt "US"), false)
              else if starts (txt "cn-") region then Some (Some (txt "CN"), false) else None
    end.
  Lemma region_iff : forall region c b, region_row region = Some (c, b) <-> region_is region c b.
  Proof.
    intros region c b. unfold region_row. split.
    - destruct (lookup aws_region_country_map region) as [cc|] eqn:L; [intros E; injection E as <- <-; apply region_listed; now apply lookup_in|].
      destruct (cstr_eqb region (txt "GLOBAL")) eqn:G; [intros E; injection E as <- <-; apply region_global; now apply cstr_eqb_eq|].
      destruct (starts (txt "us-") region) eqn:U; [intros E; injection E as <- <-; apply starts_iff in U as (x & U); exact (region_us _ x U)|].
      destruct (starts (txt "cn-") region) eqn:C; [intros E; injection E as <- <-; apply starts_iff in C as (x & C); exact (region_cn _ x C)|discriminate].
    - intros [cc I1|G|s U|s C].
      + apply map_sound in I1 as (-> & _). reflexivity.
      + subst region. vm_compute. reflexivity.
      + assert (L : lookup aws_region_country_map region = None).
        { destruct (lookup aws_region_country_map region) as [cc|] eqn:L; [|reflexivity]. apply lookup_in, map_sound in L as (_ & _ & X & _).
          assert (starts (txt "us-") region = true) by (apply starts_iff; now exists s). congruence. }
        rewrite L. replace (cstr_eqb region (txt "GLOBAL")) with false by (subst region; reflexivity).
        replace (starts (txt "us-") region) with true by (symmetry; apply starts_iff; now exists s). reflexivity.
      + assert (L : lookup aws_region_country_map region = None).
        { destruct (lookup aws_region_country_map region) as [cc|] eqn:L; [|reflexivity]. apply lookup_in, map_sound in L as (_ & _ & _ & X).
          assert (starts (txt "cn-") region = true) by (apply starts_iff; now exists s). congruence. }
        rewrite L. replace (cstr_eqb region (txt "GLOBAL")) with false by (subst region; reflexivity).
        replace (starts (txt "us-") region) with false by (subst region; reflexivity).
        replace (starts (txt "cn-") region) with true by (symmetry; apply starts_iff; now exists s). reflexivity.
  Qed.
  Lemma aws_network_iff : forall j n, aws_network py_net py_net_int j = Some n <-> network_is py_net py_net_int j n.
  Proof.
    intros j n. unfold network_is. split.
    - destruct j as [|[]|z|s|l|l]; cbn [aws_network]; try discriminate; intros H; [auto|auto|right; left; eauto|left; eauto].
    - intros [(s & -> & H)|[(z & -> & H)|[(-> & H)|(-> & H)]]]; exact H.
  Qed.
  Definition net_json (l : list (cstr * json)) : json := if true_ish (member l (txt "ipv6_prefix")) then member l (txt "ipv6_prefix") else member l (txt "ip_prefix").
  Lemma prefix_net_iff : forall l n, prefix_net l n <-> aws_network py_net py_net_int (net_json l) = Some n.
  Proof.
    intros l n. rewrite aws_network_iff. unfold SpecFeeds.prefix_net, net_json. split.
    - intros (six & four & H6 & H4 & X). apply member_iff in H6 as ->, H4 as ->. destruct X as [(F & X)|(F & X)].
      + destruct (true_ish six) eqn:T; [exact X|]. apply falsy_iff in T. contradiction.
      + apply falsy_iff in F. now rewrite F.
    - intros H. exists (member l (txt "ipv6_prefix")), (member l (txt "ip_prefix")). split; [now apply member_iff|]. split; [now apply member_iff|].
      destruct (true_ish (member l (txt "ipv6_prefix"))) eqn:T; [left|right]; (split; [|exact H]); rewrite <- falsy_iff; congruence.
  Qed.
  Lemma aws_row : forall p n a, aws_prefix p = Row (n, a) <-> aws_entry p n a.
  Proof.
    intros p n a. unfold SpecFeeds.aws_entry. split.
    - intros H. destruct p as [| | | | |l]; try discriminate. cbn [ModelFeeds.aws_prefix] in H. fold (net_json l) in H.
      destruct (aws_network py_net py_net_int (net_json l)) as [m|] eqn:Nn; [|discriminate].
      destruct (check_parsed_network is_global is_unspecified m) eqn:C; cbn [negb] in H; [|discriminate].
      destruct (member l (txt "region")) as [| | |region| |] eqn:M; try discriminate.
      assert (Q : exists c b, region_row region = Some (c, b) /\ Row (n, a) = Row (m, mkAttrs c None None (Some b) None)).
      { unfold region_row. destruct (lookup _ region) as [cc|]; [eexists _, _; split; [reflexivity|congruence]|].
        destruct (cstr_eqb region (txt "GLOBAL")); [eexists _, _; split; [reflexivity|congruence]|].
        destruct (starts (txt "us-") region); [eexists _, _; split; [reflexivity|congruence]|].
        destruct (starts (txt "cn-") region); [eexists _, _; split; [reflexivity|congruence]|discriminate]. }
      destruct Q as (c & b & R & E). injection E as -> ->. exists l, region, c, b. split; [reflexivity|]. split; [now apply prefix_net_iff|].
      split; [now apply check_iff|]. split; [apply has_iff; [discriminate|exact M]|]. split; [now apply region_iff|reflexivity].
    - intros (l & region & c & b & -> & Pn & A & M & R & ->). cbn [ModelFeeds.aws_prefix]. fold (net_json l).
      apply prefix_net_iff in Pn. rewrite Pn. apply check_iff in A. rewrite A. cbn [negb]. apply has_iff in M; [|discriminate]. rewrite M.
      apply region_iff in R. unfold region_row in R. destruct (lookup _ region); [congruence|]. destruct (cstr_eqb region (txt "GLOBAL")); [congruence|].
      destruct (starts (txt "us-") region); [congruence|]. destruct (starts (txt "cn-") region); congruence.
  Qed.
  Lemma aws_read : forall p, aws_prefix p <> Raised <-> aws_readable p.
  Proof.
    intros p. unfold SpecFeeds.aws_readable. split.
    - intros H. destruct p as [| | | | |l]; try (now contradiction H). cbn [ModelFeeds.aws_prefix] in H. fold (net_json l) in H.
      destruct (aws_network py_net py_net_int (net_json l)) as [m|] eqn:Nn; [|contradiction]. exists l, m. split; [reflexivity|].
      split; [now apply prefix_net_iff|]. intros A. apply check_iff in A. rewrite A in H. cbn [negb] in H.
      destruct (member l (txt "region")) as [| | |region| |] eqn:M; try contradiction. exists region. apply has_iff; [discriminate|exact M].
    - intros (l & n & -> & Pn & Hr). cbn [ModelFeeds.aws_prefix]. fold (net_json l). apply prefix_net_iff in Pn. rewrite Pn.
      destruct (check_parsed_network is_global is_unspecified n) eqn:C; cbn [negb]; [|discriminate]. apply check_iff in C.
      destruct (Hr C) as (region & M). apply has_iff in M; [|discriminate]. rewrite M. destruct (lookup _ region); [discriminate|].
      destruct (cstr_eqb _ _); [discriminate|]. destruct (starts (txt "us-") region); [discriminate|]. destruct (starts (txt "cn-") region); discriminate.
  Qed.
  Lemma part_or : forall l key ps, part l key ps -> member_or l key (JList []) = JList ps.
  Proof. intros l key ps [H|(H & ->)]; [now apply member_or_has|now apply member_or_no]. Qed.
  Lemma or_part : forall l key ps, member_or l key (JList []) = JList ps -> part l key ps.
  Proof.
    intros l key ps H. destruct (member_cases l key) as [N0|(v & Hv)].
    - right. split; [exact N0|]. rewrite member_or_no in H by exact N0. congruence.
    - left. rewrite (member_or_has _ _ _ _ Hv) in H. now subst v.
  Qed.
  Lemma or_has : forall l key v d, v <> d -> member_or l key d = v -> has_member l key v.
  Proof.
    intros l key v d Ne H. destruct (member_cases l key) as [N0|(w & Hw)]; [rewrite member_or_no in H by exact N0; congruence|].
    rewrite (member_or_has _ _ _ _ Hw) in H. now subst w.
  Qed.
  Lemma aws_lists_iff : forall feed ps, aws_prefixes feed = Some ps <-> aws_lists feed ps.
  Proof.
    intros feed ps. unfold aws_lists. split.
    - destruct feed as [| | | | |l]; try discriminate. cbn [aws_prefixes]. intros H. exists l. split; [reflexivity|].
      destruct (member_or l (txt "ipv6_prefixes") (JList [])) as [| | |[|]|a|] eqn:E1; try discriminate.
      + destruct (member_or l (txt "prefixes") (JList [])) as [| | |[|]| |] eqn:E2; try discriminate. injection H as <-. right.
        split; [apply (or_has _ _ _ (JList [])); [discriminate|exact E1]|]. split; [apply (or_has _ _ _ (JList [])); [discriminate|exact E2]|reflexivity].
      + destruct (member_or l (txt "prefixes") (JList [])) as [| | | |b|] eqn:E2; try discriminate. injection H as <-. left.
        exists a, b. split; [now apply or_part|]. split; [now apply or_part|reflexivity].
    - intros (l & -> & [(a & b & A & B & ->)|(A & B & ->)]); cbn [aws_prefixes].
      + now rewrite (part_or _ _ _ A), (part_or _ _ _ B).
      + now rewrite (member_or_has _ _ _ _ A), (member_or_has _ _ _ _ B).
  Qed.
  Definition aws_row_of (p : json) : option (pnet * attrs) := match aws_prefix p with Row r => Some r | _ => None end.
  Lemma insert_keeps : forall l t, (forall p, In p l -> aws_prefix p <> Raised) ->
    insert_first py_net py_net_int is_global is_unspecified l t = Some (keeps pnet_eqb aws_row_of l t).
  Proof.
    induction l as [|p l IH]; intros t H; cbn [insert_first]; [reflexivity|]. unfold keeps. cbn [fold_left]. unfold aws_row_of at 2.
    pose proof (H p (or_introl eq_refl)) as R. destruct (aws_prefix p) as [[n a]| |]; [| |contradiction]; apply IH; intros x I1; apply H; now right.
  Qed.
  Lemma insert_raised : forall l t p, In p l -> aws_prefix p = Raised -> insert_first py_net py_net_int is_global is_unspecified l t = None.
  Proof.
    induction l as [|q l IH]; intros t p I1 R; [destruct I1|]. cbn [insert_first]. destruct I1 as [->|I1]; [now rewrite R|].
    destruct (aws_prefix q) as [[n a]| |]; [| |reflexivity]; now apply (IH _ p).
  Qed.
  Lemma insert_some : forall l t rows, insert_first py_net py_net_int is_global is_unspecified l t = Some rows -> forall p, In p l -> aws_prefix p <> Raised.
  Proof. intros l t rows H p I1 R. rewrite (insert_raised l t p I1 R) in H. discriminate. Qed.
  Notation import_aws := (import_aws py_net py_net_int is_global is_unspecified py_json_file).
  Lemma imported_aws : forall f rows, import_aws f = Some rows -> exists feed prefixes, py_json_file f = Some feed /\ aws_lists feed prefixes /\
    (forall p, In p prefixes -> aws_readable p) /\ NoDup (map fst rows) /\ forall n a, In (n, a) rows <-> first_says aws_entry prefixes n a.
  Proof.
    intros f t H. unfold ModelFeeds.import_aws in H. destruct (py_json_file f) as [feed|]; [|discriminate].
    destruct (aws_prefixes feed) as [ps|] eqn:E; [|discriminate]. exists feed, ps. split; [reflexivity|]. split; [now apply aws_lists_iff|].
    pose proof (insert_some _ _ _ H) as R. split; [intros p I1; now apply aws_read, R|].
    rewrite (insert_keeps ps [] R) in H. injection H as <-. split; [apply (keeps_nodup pnet_eqb pnet_eqb_eq); constructor|].
    intros n a. rewrite (keeps_in pnet_eqb pnet_eqb_eq). rewrite (first_says_iff (selects aws_row_of) aws_entry).
    - split; [intros [[]|(_ & X)]; exact X|intros X; right; split; [intros (? & [])|exact X]].
    - intros p k x I1. unfold selects, aws_row_of. rewrite <- aws_row. destruct (aws_prefix p); split; intros X; congruence.
  Qed.
  Lemma not_imported_aws : forall f feed prefixes, import_aws f = None -> py_json_file f = Some feed -> aws_lists feed prefixes ->
    ~ forall p, In p prefixes -> aws_readable p.
  Proof.
    intros f feed ps H J L R. unfold ModelFeeds.import_aws in H. rewrite J in H. apply aws_lists_iff in L. rewrite L in H.
    rewrite insert_keeps in H; [discriminate|]. intros p I1. now apply aws_read, R.
  Qed.

  (** *** All sources *)
  Notation imports := (imports decode space py_net py_net_int is_global is_unspecified py_json py_json_file).
  Notation gets := (gets decode space py_net py_net_int is_global is_unspecified py_json py_json_file web).
  Definition nets_of (i : inserted) : list (pnet * attrs) := match i with Networks l => l | Autnums _ => [] end.
  Definition ases_of (i : inserted) : list (Z * attrs) := match i with Networks _ => [] | Autnums l => l end.
  Definition cb_ok (name : cstr) (cb : list (list N) -> option inserted) : Prop := forall f,
    match cb f with Some i => imports name f (nets_of i) (ases_of i) | None => forall nets ases, ~ imports name f nets ases end.
  Lemma aws_ok : cb_ok (txt "AWS-IP-RANGES") (fun f => networks (import_aws f)).
  Proof.
    intros f. cbn beta. destruct (import_aws f) as [l|] eqn:E; cbn [networks nets_of ases_of].
    - destruct (imported_aws _ _ E) as (feed & ps & J & L & R & D & X). exact (imports_aws _ _ _ _ _ _ _ _ f feed ps l J L R D X).
    - intros nets ases X. inversion X as [f0 feed ps t J L R D Z|name f0 t [Q|Q]|]; [|discriminate|discriminate].
      subst. exact (not_imported_aws f feed ps E J L R).
  Qed.
  Lemma drop_ok : forall name, name = txt "SPAMHAUS-DROP" \/ name = txt "SPAMHAUS-DROPV6" ->
    cb_ok name (fun f => networks (import_drop decode space py_net is_global is_unspecified f)).
  Proof.
    intros name Hn f. cbn beta. destruct (import_drop decode space py_net is_global is_unspecified f) as [l|] eqn:E; cbn [networks nets_of ases_of].
    - destruct (imported_drop _ _ E) as (R & D & X). now apply imports_drop.
    - intros nets ases X. inversion X as [| |]; subst; [destruct Hn; discriminate| |destruct Hn; discriminate].
      eapply not_imported_drop; [exact E|assumption].
  Qed.
  Lemma asndrop_ok : cb_ok (txt "SPAMHAUS-ASNDROP") (fun f => autnums (import_asndrop decode py_json f)).
  Proof.
    intros f. cbn beta. destruct (import_asndrop decode py_json f) as [l|] eqn:E; cbn [autnums nets_of ases_of].
    - destruct (imported_asndrop _ _ E) as (R & T & D & X). now apply imports_asndrop.
    - intros nets ases X. inversion X as [|name f0 t [Q|Q]|]; subst; [discriminate|discriminate|].
      eapply not_imported_asndrop; [exact E|]. split; assumption.
  Qed.

  Lemma others : forall {K} (name other : cstr) (t : list (K * cstr * attrs)) l k a, other <> name ->
    (In (k, other, a) (filter (fun r => negb (cstr_eqb (snd (fst r)) name)) t ++ map (fun r => (fst r, name, snd r)) l) <-> In (k, other, a) t).
  Proof.
    intros K name other t l k a Ne. rewrite in_app_iff, filter_In, in_map_iff. cbn [fst snd]. split.
    - intros [(H & _)|((k' & a') & E & _)]; [exact H|congruence].
    - intros H. left. split; [exact H|]. apply negb_true_iff, not_true_is_false. now rewrite cstr_eqb_eq.
  Qed.
  Lemma own : forall {K} (name : cstr) (t : list (K * cstr * attrs)) l k a,
    (In (k, name, a) (filter (fun r => negb (cstr_eqb (snd (fst r)) name)) t ++ map (fun r => (fst r, name, snd r)) l) <-> In (k, a) l).
  Proof.
    intros K name t l k a. rewrite in_app_iff, filter_In, in_map_iff. cbn [fst snd]. rewrite eqb_refl. cbn [negb]. split.
    - intros [(_ & H)|((k' & a') & E & H)]; [discriminate|]. cbn [fst snd] in E. congruence.
    - intros H. right. exists (k, a). split; [reflexivity|exact H].
  Qed.
  Lemma process_rows : forall name cb url st st', cb_ok name cb -> process_feed web name cb url st = Some st' ->
    (exists nets ases, gets name url nets ases /\ rows_are st' name nets ases) /\ forall other, other <> name -> same_rows st st' other.
  Proof.
    intros name cb url st st' Ok0 H. unfold process_feed in H. destruct (web url) as [f|] eqn:W; [|discriminate]. pose proof (Ok0 f) as X.
    destruct (cb f) as [i|] eqn:C; [|discriminate].
    assert (E : st' = mkFeeds (filter (fun r => negb (cstr_eqb (snd (fst r)) name)) (fd_networks st) ++ map (fun r => (fst r, name, snd r)) (nets_of i))
                              (filter (fun r => negb (cstr_eqb (snd (fst r)) name)) (fd_autnums st) ++ map (fun r => (fst r, name, snd r)) (ases_of i))).
    { destruct i; cbn [nets_of ases_of map]; rewrite app_nil_r; congruence. }
    subst st'. clear H. split.
    - exists (nets_of i), (ases_of i). split; [now exists f|]. split; intros k a; apply own.
    - intros other Ne. split; intros k a; now apply others.
  Qed.
  Lemma process_none : forall name cb url st, cb_ok name cb -> process_feed web name cb url st = None -> forall nets ases, ~ gets name url nets ases.
  Proof.
    intros name cb url st Ok0 H nets ases (f & W & G). unfold process_feed in H. rewrite W in H. pose proof (Ok0 f) as X.
    destruct (cb f) as [i|]; [destruct i; discriminate|]. exact (X nets ases G).
  Qed.
  Lemma requested_iff : forall wanted name, requested wanted name = true <-> asked wanted name.
  Proof.
    intros [|w wanted] name; unfold requested, asked; [split; [now left|reflexivity]|]. rewrite existsb_exists. split.
    - intros (x & I1 & E). apply cstr_eqb_eq in E as ->. now right.
    - intros [H|H]; [discriminate|]. exists name. split; [exact H|apply eqb_refl].
  Qed.
  Lemma same_trans : forall a b c name, same_rows a b name -> same_rows b c name -> same_rows a c name.
  Proof. intros a b c name (H1 & H2) (H3 & H4). split; intros k x; [now rewrite H3|now rewrite H4]. Qed.
  Lemma same_refl : forall a name, same_rows a a name.
  Proof. intros a name. split; reflexivity. Qed.
  Lemma rows_same : forall a b name nets ases, rows_are a name nets ases -> same_rows a b name -> rows_are b name nets ases.
  Proof. intros a b name nets ases (H1 & H2) (H3 & H4). split; intros k x; [now rewrite H3|now rewrite H4]. Qed.
  Notation entry := (cstr * (list (list N) -> option inserted) * cstr)%type.
  Definition entry_name (e : entry) : cstr := fst (fst e).
  Lemma processed : forall (l : list entry) wanted st b st' b', (forall e, In e l -> cb_ok (entry_name e) (snd (fst e))) -> NoDup (map entry_name l) ->
    process_feeds web l wanted st b = (st', b') ->
    (forall name, ~ In name (map entry_name l) -> same_rows st st' name) /\
    (forall e, In e l -> ~ asked wanted (entry_name e) -> same_rows st st' (entry_name e)) /\
    (forall e, In e l -> asked wanted (entry_name e) ->
      (exists nets ases, gets (entry_name e) (snd e) nets ases /\ rows_are st' (entry_name e) nets ases) \/
      ((forall nets ases, ~ gets (entry_name e) (snd e) nets ases) /\ same_rows st st' (entry_name e))) /\
    (b' = true <-> b = true /\ forall e, In e l -> asked wanted (entry_name e) -> exists nets ases, gets (entry_name e) (snd e) nets ases).
  Proof.
    induction l as [|[[name cb] url] l IH]; intros wanted st b st' b' Ok0 D H.
    - cbn [process_feeds] in H. injection H as -> ->. split; [intros; apply same_refl|]. split; [intros ? []|]. split; [intros ? []|].
      split; [intros E; split; [exact E|intros ? []]|intros (E & _); exact E].
    - cbn [process_feeds] in H. cbn [map] in D. apply NoDup_cons_iff in D as [N0 D]. change (entry_name (name, cb, url)) with name in N0.
      assert (Ok1 : forall e, In e l -> cb_ok (entry_name e) (snd (fst e))) by (intros e I1; apply Ok0; now right).
      assert (Ok2 : cb_ok name cb) by (exact (Ok0 _ (or_introl eq_refl))).
      assert (Neq : forall e, In e l -> entry_name e <> name) by (intros e I1 E; apply N0; rewrite <- E; now apply in_map).
      destruct (requested wanted name) eqn:Rq; cbn [negb] in H.
      + apply requested_iff in Rq. destruct (process_feed web name cb url st) as [st1|] eqn:P.
        * destruct (process_rows _ _ _ _ _ Ok2 P) as ((nets & ases & G & R) & Ot).
          destruct (IH _ _ _ _ _ Ok1 D H) as (H1 & H2 & H3 & H4). split; [|split; [|split]].
          -- intros n Nn. cbn [map In] in Nn. apply (same_trans _ st1); [apply Ot; intros ->; apply Nn; now left|apply H1; intros X; apply Nn; now right].
          -- intros e [<-|I1] Na; [contradiction|]. apply (same_trans _ st1); [apply Ot; now apply Neq|now apply H2].
          -- intros e [<-|I1] A.
             ++ left. exists nets, ases. split; [exact G|]. exact (rows_same st1 st' name nets ases R (H1 name N0)).
             ++ destruct (H3 e I1 A) as [X|(X & Y)]; [now left|right]. split; [exact X|]. apply (same_trans _ st1); [apply Ot; now apply Neq|exact Y].
          -- rewrite H4. split; intros (B & X); (split; [exact B|]).
             ++ intros e [<-|I1] A; [now exists nets, ases|now apply X].
             ++ intros e I1 A. apply X; [now right|exact A].
        * pose proof (process_none _ _ _ _ Ok2 P) as Ng. destruct (IH _ _ _ _ _ Ok1 D H) as (H1 & H2 & H3 & H4). split; [|split; [|split]].
          -- intros n Nn. apply H1. intros X. apply Nn. now right.
          -- intros e [<-|I1] Na; [contradiction|now apply H2].
          -- intros e [<-|I1] A; [right; split; [exact Ng|now apply H1]|now apply H3].
          -- rewrite H4. split; [intros (X & _); discriminate|]. intros (_ & X). exfalso.
             destruct (X _ (or_introl eq_refl) Rq) as (nets & ases & G). exact (Ng nets ases G).
      + assert (Na0 : ~ asked wanted name) by (rewrite <- requested_iff; congruence).
        destruct (IH _ _ _ _ _ Ok1 D H) as (H1 & H2 & H3 & H4). split; [|split; [|split]].
        * intros n Nn. apply H1. intros X. apply Nn. now right.
        * intros e [<-|I1] Na; [now apply H1|now apply H2].
        * intros e [<-|I1] A; [contradiction|now apply H3].
        * rewrite H4. split; intros (B & X); (split; [exact B|]).
          -- intros e [<-|I1] A; [contradiction|now apply X].
          -- intros e I1 A. apply X; [now right|exact A].
  Qed.
  Lemma all_ok : forall e, In e (all_feeds decode space py_net py_net_int is_global is_unspecified py_json py_json_file) -> cb_ok (entry_name e) (snd (fst e)).
  Proof.
    intros e [<-|[<-|[<-|[<-|[]]]]]; cbn [entry_name fst snd]; [exact aws_ok|apply drop_ok; now left|apply drop_ok; now right|exact asndrop_ok].
  Qed.
  Lemma feeds_updated : forall wanted st st' code,
    update_feeds decode space py_net py_net_int is_global is_unspecified py_json py_json_file web wanted st = (st', code) ->
    (forall name, (forall url, ~ In (name, url) sources) -> rows_are st' name [] []) /\
    (forall name url, In (name, url) sources -> ~ asked wanted name -> same_rows st st' name) /\
    (forall name url, In (name, url) sources -> asked wanted name ->
      (exists nets ases, gets name url nets ases /\ rows_are st' name nets ases) \/
      ((forall nets ases, ~ gets name url nets ases) /\ same_rows st st' name)) /\
    (code = 0%Z <-> forall name url, In (name, url) sources -> asked wanted name -> exists nets ases, gets name url nets ases).
  Proof.
    intros wanted st st' code H. unfold update_feeds in H.
    set (all := all_feeds decode space py_net py_net_int is_global is_unspecified py_json py_json_file) in *.
    set (names := map (fun f => fst (fst f)) all) in *.
    destruct (process_feeds web all wanted _ true) as [st1 b'] eqn:P. injection H as -> <-.
    assert (D : NoDup (map entry_name all)).
    { change (NoDup [txt "AWS-IP-RANGES"; txt "SPAMHAUS-DROP"; txt "SPAMHAUS-DROPV6"; txt "SPAMHAUS-ASNDROP"]).
      repeat constructor; vm_compute; intuition discriminate. }
    destruct (processed all _ _ _ _ _ all_ok D P) as (H1 & H2 & H3 & H4).
    assert (Src : forall name url, In (name, url) sources -> exists e, In e all /\ entry_name e = name /\ snd e = url).
    { intros name url [E|[E|[E|[E|[]]]]]; injection E as <- <-; [exists (nth 0 all ([], fun _ => None, []))|exists (nth 1 all ([], fun _ => None, []))|exists (nth 2 all ([], fun _ => None, []))|exists (nth 3 all ([], fun _ => None, []))];
        (split; [apply nth_In; cbn; lia|split; reflexivity]). }
    assert (Src2 : forall e, In e all -> In (entry_name e, snd e) sources).
    { intros e [<-|[<-|[<-|[<-|[]]]]]; cbn [entry_name fst snd]; [now left|right; now left|right; right; now left|right; right; right; now left]. }
    assert (Kn : forall name, existsb (cstr_eqb name) names = true <-> exists url, In (name, url) sources).
    { intros name. rewrite existsb_exists. split.
      - intros (x & I1 & E). apply cstr_eqb_eq in E as ->. apply in_map_iff in I1 as (e & <- & I1). exists (snd e). exact (Src2 e I1).
      - intros (url & I1). destruct (Src _ _ I1) as (e & I2 & <- & _). exists (entry_name e). split; [unfold names; now apply (in_map entry_name)|apply eqb_refl]. }
    set (st0 := mkFeeds _ _) in *.
    assert (Same : forall name url, In (name, url) sources -> same_rows st st0 name).
    { intros name url I1. split; intros k a; cbn [st0 fd_networks fd_autnums]; rewrite filter_In; cbn [fst snd];
        (split; [intros (X & _); exact X|intros X; split; [exact X|apply Kn; now exists url]]). }
    split; [|split; [|split]].
    - intros name N0.
      assert (Ne : existsb (cstr_eqb name) names = false) by (apply not_true_is_false; rewrite Kn; intros (url & I1); exact (N0 url I1)).
      assert (S1 : same_rows st0 st' name).
      { apply H1. intros I1. apply in_map_iff in I1 as (e & <- & I1). exact (N0 _ (Src2 e I1)). }
      apply (rows_same st0); [|exact S1]. split; intros k a; cbn [st0 fd_networks fd_autnums]; rewrite filter_In; cbn [fst snd]; rewrite Ne;
        (split; [intros (_ & X); discriminate|intros []]).
    - intros name url I1 Na. pose proof (Same _ _ I1) as S0. destruct (Src _ _ I1) as (e & I2 & <- & <-).
      apply (same_trans _ st0); [exact S0|now apply H2].
    - intros name url I1 A. pose proof (Same _ _ I1) as S0. destruct (Src _ _ I1) as (e & I2 & <- & <-).
      destruct (H3 e I2 A) as [X|(X & Y)]; [now left|right]. split; [exact X|]. now apply (same_trans _ st0).
    - split.
      + intros E. assert (B : b' = true) by (destruct b'; [reflexivity|discriminate]). apply H4 in B as (_ & B). intros name url I1 A.
        destruct (Src _ _ I1) as (e & I2 & <- & <-). now apply B.
      + intros X. assert (B : b' = true); [|now rewrite B]. apply H4. split; [reflexivity|]. intros e I1 A. exact (X _ _ (Src2 e I1) A).
  Qed.
End Feeds.

(** The table of regions, by computation *)
Definition region_right (m : list (cstr * cstr)) (us cn global us_cc cn_cc r cc : cstr) (is_odd : bool) : bool :=
  let listed := filter (fun y => cstr_eqb (fst y) r) m in
  ((negb (match listed with [] => true | _ => false end) || starts us r || starts cn r) && negb (cstr_eqb r global)) &&
  (is_odd || ((forallb (fun y => cstr_eqb (snd y) cc) listed && (negb (starts us r) || cstr_eqb cc us_cc)) && (negb (starts cn r) || cstr_eqb cc cn_cc))).
Lemma starts_prefix p s : starts p (p ++ s) = true.
Proof. unfold starts. rewrite firstn_app, Nat.sub_diag, firstn_all. cbn [firstn]. rewrite app_nil_r. now apply cstr_eqb_eq. Qed.
Lemma starts_is p s : starts p s = true -> exists t, s = p ++ t.
Proof. unfold starts. intros H. apply cstr_eqb_eq in H. exists (skipn (List.length p) s). rewrite <- H at 1. now rewrite firstn_skipn. Qed.
Lemma region_right_says m us cn global us_cc cn_cc r cc is_odd : region_right m us cn global us_cc cn_cc r cc is_odd = true ->
  ((exists c, In (r, c) m) \/ (exists t, r = us ++ t) \/ (exists t, r = cn ++ t)) /\ r <> global /\
  (is_odd = false -> (forall c, In (r, c) m -> c = cc) /\ (forall t, r = us ++ t -> us_cc = cc) /\ (forall t, r = cn ++ t -> cn_cc = cc)).
Proof.
  unfold region_right. set (listed := filter (fun y => cstr_eqb (fst y) r) m). assert (Li : forall c, In (r, c) m -> In (r, c) listed).
  { intros c Ic. apply filter_In. split; auto. now apply cstr_eqb_eq. }
  assert (Lo : forall x c, In (x, c) listed -> x = r /\ In (x, c) m) by (intros x c Ic; apply filter_In in Ic as [A B]; apply cstr_eqb_eq in B; auto).
  clearbody listed. intros H. apply andb_prop in H as [H H3]. apply andb_prop in H as [H1 H2]. split; [|split].
  - apply orb_prop in H1 as [H1|H1]; [apply orb_prop in H1 as [H1|H1]|].
    + left. destruct listed as [|[x c] l]; [discriminate|]. destruct (Lo x c (or_introl eq_refl)) as [-> I1]. eauto.
    + right. left. now apply starts_is.
    + right. right. now apply starts_is.
  - intros ->. rewrite (proj2 (cstr_eqb_eq _ _) eq_refl) in H2. discriminate.
  - intros ->. cbn [orb] in H3. apply andb_prop in H3 as [H3 C]. apply andb_prop in H3 as [L U]. split; [|split].
    + intros c Ic. rewrite forallb_forall in L. specialize (L _ (Li _ Ic)). now apply cstr_eqb_eq in L.
    + intros t ->. rewrite starts_prefix in U. cbn [negb orb] in U. apply cstr_eqb_eq in U. now symmetry.
    + intros t ->. rewrite starts_prefix in C. cbn [negb orb] in C. apply cstr_eqb_eq in C. now symmetry.
Qed.
Definition table_right (table : list (cstr * cstr)) : bool :=
  forallb (fun x => region_right aws_region_country_map (txt "us-") (txt "cn-") (txt "GLOBAL") (txt "US") (txt "CN") (fst x) (snd x) (existsb (cstr_eqb (fst x)) odd_regions)) table.
Lemma table_right_in table region cc : table_right table = true -> In (region, cc) table ->
  region_right aws_region_country_map (txt "us-") (txt "cn-") (txt "GLOBAL") (txt "US") (txt "CN") region cc (existsb (cstr_eqb region) odd_regions) = true.
Proof. intros H I1. exact (proj1 (forallb_forall _ table) H (region, cc) I1). Qed.
Lemma regions_right table : table_right table = true -> forall region cc, In (region, cc) table ->
  (exists cc', region_is region (Some cc') false) /\
  (~ In region odd_regions -> forall cc' anycast, region_is region cc' anycast -> cc' = Some cc /\ anycast = false).
Proof.
  intros H region cc I1. apply (table_right_in _ _ _ H) in I1. apply region_right_says in I1 as (A & G & D). split.
  - destruct A as [[c Ic]|[[t Et]|[t Et]]]; eexists; [eapply region_listed; exact Ic|eapply region_us; exact Et|eapply region_cn; exact Et].
  - intros No cc' anycast R. destruct (existsb (cstr_eqb region) odd_regions) eqn:Eo.
    { exfalso. apply No. apply existsb_exists in Eo as (y & Iy & Ey). apply cstr_eqb_eq in Ey. rewrite Ey. exact Iy. }
    destruct (D eq_refl) as (D1 & D2 & D3). destruct R as [c Ic|E|s E|s E]; [|contradiction|..]; (split; [f_equal|reflexivity]); eauto.
Qed.
