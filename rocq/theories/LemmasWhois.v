(** Proofs about the objects of WHOIS data *)
From Coq Require Import String.
From Coq Require Import NArith ZArith List Bool Lia ZifyBool ZifyNat ZifyN.
From Verif Require Import Base ModelCountryCode ModelStringPool SpecText LemmasStringPool ModelImport SpecImport LemmasImport
  LemmasImportTable LemmasImportRange LemmasImportProps ModelCompile ModelGeofeed SpecGeofeed LemmasGeofeed ModelOverrides SpecOverrides LemmasOverrides
  ModelFeeds SpecFeeds LemmasFeeds ModelWhois SpecWhois LemmasWhoisTable.
Import ListNotations.
Open Scope N_scope.

Lemma decimal_iff : forall s n, decimal s n <-> forallb is_digit s = true /\ fold_left (fun x c => 10 * x + (c - 48)) s 0 = n.
Proof.
  intros s. induction s as [|c s IH] using rev_ind; intros n.
  - cbn [forallb fold_left]. split.
    + intros H. inversion H as [|s0 n0 c0 H1 H2 E]; [auto|]. symmetry in E. now apply app_cons_not_nil in E.
    + intros (_ & <-). constructor.
  - rewrite forallb_app, fold_left_app. cbn [forallb fold_left]. rewrite andb_true_r, andb_true_iff. split.
    + intros H. inversion H as [E|s0 n0 c0 H1 H2 E]; [now apply app_cons_not_nil in E|].
      apply app_inj_tail in E as [-> ->]. apply IH in H1 as (H1 & <-). split; [split; [exact H1|unfold is_digit; lia]|reflexivity].
    + intros ((H1 & H2) & <-). constructor; [apply IH; auto|unfold is_digit in H2; lia].
Qed.
Lemma integer_iff : forall d z, pg_integer d = Some z <-> integer d z.
Proof.
  intros d z. unfold pg_integer, integer. split.
  - destruct (forallb is_digit d) eqn:F; [|discriminate]. set (n := fold_left _ d 0). destruct (n <? 2 ^ 31) eqn:L; [|discriminate].
    intros E. exists n. split; [apply decimal_iff; auto|]. split; [now apply N.ltb_lt|congruence].
  - intros (n & D & L & ->). apply decimal_iff in D as (-> & ->). apply N.ltb_lt in L. now rewrite L.
Qed.
Lemma nul_iff : forall s, nul_free s <-> has_nul s = false.
Proof. intros s. symmetry. apply has_nul_iff. Qed.

Section Whois.
  Variable decode : list N -> cstr.
  Variable decode_strict : list N -> option cstr.
  Variables space digit : N -> bool.
  Variable upper : cstr -> cstr.
  Variable py_int : cstr -> option Z.
  Variable py_log2 : Z -> option Z.
  Variable py_addr : cstr -> option (N * N).
  Variable py_net : cstr -> option pnet.
  Variables is_global is_unspecified : pnet -> bool.
  Variable urlparse : cstr -> option (cstr * cstr).
  Variable py_csv : list (list N) -> option (list arin).
  Variable web : cstr -> option (list (list N)).
  Variable countries : list cstr.
  Notation split_line := (split_line space).
  Notation attr := (attr space).

  Lemma attr_iff : forall key line val, attr key line val <-> split_line line = (key, val).
  Proof.
    intros key line val. unfold SpecWhois.attr, ModelWhois.split_line. split.
    - intros (k & v & K & V & P & E). apply strip_iff in K, V. destruct E as [->|(-> & ->)]; [rewrite partition_plain by exact P|rewrite partition_none by exact P]; congruence.
    - pose proof (partition_spec COLON line) as P. destruct (partition COLON line) as [k [v|]]; destruct P as (-> & P); intros E.
      + exists k, v. split; [apply strip_iff; congruence|]. split; [apply strip_iff; congruence|]. split; [exact P|now left].
      + exists k, []. split; [apply strip_iff; congruence|]. split; [apply strip_iff; congruence|]. split; [exact P|now right].
  Qed.
  Lemma key_eq : forall a b, cstr_eqb a b = true <-> a = b.
  Proof. intros. apply cstr_eqb_eq. Qed.
  Lemma digits_iff : forall s d, digits digit s = d <-> exists x, s = d ++ x /\ Forall (fun c => digit c = true) d /\ (forall c y, x = c :: y -> digit c = false).
  Proof.
    induction s as [|c s IH]; intros d; cbn [digits].
    - split; [intros <-; exists []; split; [reflexivity|split; [constructor|discriminate]]|]. intros (x & E & _). symmetry in E. now apply app_eq_nil in E as [-> _].
    - destruct (digit c) eqn:D.
      + split.
        * intros <-. destruct (proj1 (IH _) eq_refl) as (x & E & F & N0). exists x. cbn [app]. rewrite <- E. split; [reflexivity|]. split; [now constructor|exact N0].
        * intros (x & E & F & N0). destruct d as [|c' d]; cbn [app] in E; [subst x; rewrite (N0 c s eq_refl) in D; discriminate|].
          injection E as <- E. apply Forall_cons_iff in F as [_ F]. f_equal. apply IH. now exists x.
      + split.
        * intros <-. exists (c :: s). split; [reflexivity|]. split; [constructor|]. intros c' y E. congruence.
        * intros (x & E & F & N0). destruct d as [|c' d]; [reflexivity|]. cbn [app] in E. injection E as <- E. apply Forall_cons_iff in F as [F _]. congruence.
  Qed.
  Lemma begins_iff : forall p s, starts p s = true <-> begins p s.
  Proof. intros. apply starts_iff. Qed.
  Lemma match_asn_iff : forall val d, match_asn digit val = Some d <->
    exists x, (val = txt "AS" ++ d ++ x \/ val = txt "as" ++ d ++ x) /\ d <> [] /\ Forall (fun c => digit c = true) d /\ (forall c y, x = c :: y -> digit c = false).
  Proof.
    intros val d. unfold match_asn. split.
    - destruct (starts (txt "AS") val || starts (txt "as") val) eqn:St; [|discriminate].
      destruct (digits digit (skipn 2 val)) as [|c e] eqn:Dg; [discriminate|]. intros E. injection E as <-.
      apply digits_iff in Dg as (x & E & F & N0). exists x. apply orb_true_iff in St. rewrite !begins_iff in St.
      split; [|split; [discriminate|auto]]. destruct St as [(r & ->)|(r & ->)]; [left; change (skipn 2 (txt "AS" ++ r)) with r in E|right; change (skipn 2 (txt "as" ++ r)) with r in E]; now rewrite E.
    - intros (x & E & N0 & F & Nx).
      assert (Dg : digits digit (skipn 2 val) = d) by (apply digits_iff; exists x; destruct E as [-> | ->]; auto).
      replace (starts (txt "AS") val || starts (txt "as") val) with true.
      + rewrite Dg. destruct d; [contradiction|reflexivity].
      + symmetry. apply orb_true_iff. rewrite !begins_iff. destruct E as [-> | ->]; [left|right]; eexists; reflexivity.
  Qed.
  Notation asn_line := (asn_line space digit).
  Notation org_line := (org_line space upper).
  Notation handle_line := (handle_line space upper).
  Definition value_of {A} (key : cstr) (f : cstr -> option A) (line : cstr) : option A :=
    let (k, v) := split_line line in if cstr_eqb k key then f v else None.
  Lemma value_iff : forall {A} key (f : cstr -> option A) line x, value_of key f line = Some x <-> exists v, attr key line v /\ f v = Some x.
  Proof.
    intros A key f line x. unfold value_of. destruct (split_line line) as [k v] eqn:Sp. destruct (cstr_eqb k key) eqn:E.
    - apply key_eq in E. subst k. split; [intros H; exists v; split; [now apply attr_iff|exact H]|].
      intros (v' & At & H). apply attr_iff in At. replace v with v' by congruence. exact H.
    - split; [discriminate|]. intros (v' & At & _). apply attr_iff in At. assert (k = key) by congruence. subst k. rewrite (proj2 (key_eq key key) eq_refl) in E. discriminate.
  Qed.
  (** a value that is set by every line, or by the first one *)
  Section Sets.
    Context {A : Type}.
    Variable g : cstr -> option A.
    Variable P : cstr -> A -> Prop.
    Hypothesis g_iff : forall line x, g line = Some x <-> P line x.
    Lemma g_decided : forall line, decided P line.
    Proof.
      intros line. destruct (g line) as [x|] eqn:E; [left; exists x; now apply g_iff|right; intros x H; apply g_iff in H; congruence].
    Qed.
    Lemma g_none : forall line, g line = None <-> forall x, ~ P line x.
    Proof.
      intros line. destruct (g line) as [x|] eqn:E; [split; [discriminate|]; intros N0; exfalso; apply (N0 x); now apply g_iff|].
      split; [|reflexivity]. intros _ x H. apply g_iff in H. congruence.
    Qed.
    Definition setter (o : option A) (line : cstr) : option A := match g line with Some x => Some x | None => o end.
    Definition keeper (o : option A) (line : cstr) : option A := match o with Some x => Some x | None => g line end.
    Lemma setter_steps : forall line, steps P (fun _ _ => False) setter line.
    Proof.
      intros line o. split; [intros v H; apply g_iff in H; unfold setter; now rewrite H|]. intros N0. split; [intros v []|]. intros _.
      apply g_none in N0. unfold setter. now rewrite N0.
    Qed.
    Lemma keeper_steps : forall line, steps (fun _ _ => False) P keeper line.
    Proof.
      intros line o. split; [intros v []|]. intros _. split; [intros v H; apply g_iff in H; unfold keeper; rewrite H; now destruct o|].
      intros N0. apply g_none in N0. unfold keeper. rewrite N0. now destruct o.
    Qed.
    Lemma false_decided : forall (line : cstr), decided (fun _ (_ : A) => False) line.
    Proof. intros line. right. intros v []. Qed.
    Lemma last_set : forall b x, fold_left setter b None = Some x <-> last_line P b x.
    Proof.
      intros b x. rewrite (folded P (fun _ _ => False) setter b None) by (intros; first [apply setter_steps|apply g_decided|apply false_decided]).
      split; [|now left]. intros [H|(_ & [H|(_ & y & l & z & _ & [] & _)])]; [exact H|discriminate].
    Qed.
    Lemma last_unset : forall b, fold_left setter b None = None <-> no_line P b.
    Proof.
      intros b. rewrite (folded_none P (fun _ _ => False) setter b None) by (intros; first [apply setter_steps|apply g_decided|apply false_decided]).
      split; [intros (H & _); exact H|]. intros H. split; [exact H|]. split; [reflexivity|]. intros ? ? ? [].
    Qed.
    Lemma first_kept : forall b x, fold_left keeper b None = Some x <-> first_line P b x.
    Proof.
      intros b x. rewrite (folded (fun _ _ => False) P keeper b None) by (intros; first [apply keeper_steps|apply g_decided|apply false_decided]).
      split; [|intros H; right; split; [intros ? ? ? []|right; auto]]. intros [(y & l & z & _ & [] & _)|(_ & [H|(_ & H)])]; [discriminate|exact H].
    Qed.
    Lemma first_unkept : forall b, fold_left keeper b None = None <-> no_line P b.
    Proof.
      intros b. rewrite (folded_none (fun _ _ => False) P keeper b None) by (intros; first [apply keeper_steps|apply g_decided|apply false_decided]).
      split; [intros (_ & _ & H); exact H|]. intros H. split; [intros ? ? ? []|auto].
    Qed.
    Lemma last_one : forall b x y, last_line P b x -> last_line P b y -> x = y.
    Proof. intros b x y H1 H2. apply last_set in H1, H2. congruence. Qed.
    Lemma first_one : forall b x y, first_line P b x -> first_line P b y -> x = y.
    Proof. intros b x y H1 H2. apply first_kept in H1, H2. congruence. Qed.
    Lemma last_some : forall b l x, In l b -> P l x -> exists y, last_line P b y.
    Proof.
      intros b l x I1 H. destruct (fold_left setter b None) as [y|] eqn:E; [exists y; now apply last_set|]. apply last_unset in E. now apply (E l x) in I1.
    Qed.
  End Sets.
  Definition asn_of := value_of (txt "aut-num") (match_asn digit).
  Definition org_of := value_of (txt "org") (fun v => Some (upper v)).
  Definition descr_of := value_of (txt "descr") (fun v => Some v).
  Lemma asn_of_iff : forall line d, asn_of line = Some d <-> asn_line line d.
  Proof.
    intros line d. unfold asn_of. rewrite value_iff. unfold SpecWhois.asn_line. split.
    - intros (v & A & M). apply match_asn_iff in M as (x & M). now exists v, x.
    - intros (v & x & A & M). exists v. split; [exact A|]. apply match_asn_iff. now exists x.
  Qed.
  Lemma upper_iff : forall key line h, value_of key (fun v => Some (upper v)) line = Some h <-> exists v, attr key line v /\ h = upper v.
  Proof. intros key line h. rewrite value_iff. split; intros (v & A & E); exists v; split; congruence. Qed.
  Lemma plain_iff : forall key line h, value_of key (fun v => Some v) line = Some h <-> attr key line h.
  Proof.
    intros key line h. rewrite value_iff. split; [intros (v & A & E); congruence|]. intros A. now exists h.
  Qed.
  Lemma autnum_lines_is : forall b a o d, autnum_lines space digit upper b a o d = (fold_left (setter asn_of) b a, fold_left (setter org_of) b o, fold_left (keeper descr_of) b d).
  Proof.
    induction b as [|line b IH]; intros a o d; [reflexivity|]. cbn [autnum_lines fold_left]. unfold setter at 2 4, keeper at 2, asn_of, org_of, descr_of, value_of.
    destruct (split_line line) as [k v]. destruct (cstr_eqb k (txt "aut-num")) eqn:E1.
    - apply key_eq in E1. subst k. cbn -[fold_left match_asn autnum_lines setter keeper]. rewrite IH. destruct d; reflexivity.
    - destruct (cstr_eqb k (txt "org")) eqn:E2.
      + apply key_eq in E2. subst k. rewrite IH. destruct d; reflexivity.
      + destruct (cstr_eqb k (txt "descr")) eqn:E3; rewrite IH; destruct d; reflexivity.
  Qed.

  Notation handle_is := (handle_is space upper).
  Notation descr_line := (attr (txt "descr")).
  Notation autnum_block := (autnum_block space digit upper).
  Definition org_iff := upper_iff (txt "org").
  Definition descr_iff := plain_iff (txt "descr").
  (** what the lines of an aut-num object have *)
  Inductive autnum_view (b : list cstr) : option (list stmt) -> Prop :=
    | view_no_asn : no_line asn_line b -> autnum_view b (Some [])
    | view_org : forall d h, last_line asn_line b d -> last_line org_line b h ->
        autnum_view b (match pg_integer d with Some z => if has_nul h then None else Some [PutAs z h] | None => None end)
    | view_descr : forall d n, last_line asn_line b d -> no_line org_line b -> first_line descr_line b n ->
        autnum_view b (match pg_integer d with Some z => if has_nul n then None else Some [DummyOrg (dummy_handle d) n; PutAs z (dummy_handle d)] | None => None end)
    | view_nothing : forall d, last_line asn_line b d -> no_line org_line b -> no_line descr_line b -> autnum_view b (Some []).
  Lemma autnum_viewed : forall b, autnum_view b (autnum_block b).
  Proof.
    intros b. unfold ModelWhois.autnum_block. rewrite autnum_lines_is.
    destruct (fold_left (setter asn_of) b None) as [d|] eqn:A; [|apply view_no_asn; exact (proj1 (last_unset asn_of _ asn_of_iff b) A)].
    apply (last_set asn_of _ asn_of_iff) in A. destruct (fold_left (setter org_of) b None) as [h|] eqn:O.
    - apply (last_set org_of _ org_iff) in O. now apply view_org.
    - apply (last_unset org_of _ org_iff) in O. destruct (fold_left (keeper descr_of) b None) as [n|] eqn:D.
      + apply (first_kept descr_of _ descr_iff) in D. now apply view_descr.
      + apply (first_unkept descr_of _ descr_iff) in D. now apply (view_nothing b d).
  Qed.
  Lemma no_last : forall {A} (P : cstr -> A -> Prop) b x, no_line P b -> ~ last_line P b x.
  Proof. intros A P b x N0 (y & l & z & -> & H & _). apply (N0 l x); [apply in_or_app; right; now left|exact H]. Qed.
  Lemma no_first : forall {A} (P : cstr -> A -> Prop) b x, no_line P b -> ~ first_line P b x.
  Proof. intros A P b x N0 (y & l & z & -> & H & _). apply (N0 l x); [apply in_or_app; right; now left|exact H]. Qed.
  Definition asn_one := last_one asn_of _ asn_of_iff.
  Definition org_one := last_one org_of _ org_iff.
  Definition descr_one := first_one descr_of _ descr_iff.
  Definition as_in (b : list cstr) (z : Z) (h : cstr) : Prop := exists d, last_line asn_line b d /\ integer d z /\ handle_is b d h.
  Definition dummy_in (b : list cstr) (h n : cstr) : Prop :=
    exists d, last_line asn_line b d /\ no_line org_line b /\ first_line descr_line b n /\ h = txt "LIBLOC-" ++ d ++ txt "-ORGHANDLE".
  Lemma autnum_stmts : forall b l, autnum_block b = Some l ->
    (forall z h, In (PutAs z h) l <-> as_in b z h) /\ (forall h n, In (DummyOrg h n) l <-> dummy_in b h n) /\
    (forall q, In q l -> (exists z h, q = PutAs z h) \/ exists h n, q = DummyOrg h n).
  Proof.
    intros b l H. pose proof (autnum_viewed b) as V. rewrite H in V. inversion V as [N0 E|d h A O E|d n A O D E|d A O D E].
    - subst l. split; [|split; [|intros q []]].
      + intros z h. split; [intros []|]. intros (d & A & _). now apply (no_last _ _ _ N0) in A.
      + intros h n. split; [intros []|]. intros (d & A & _). now apply (no_last _ _ _ N0) in A.
    - destruct (pg_integer d) as [z|] eqn:P; [|discriminate]. destruct (has_nul h); [discriminate|]. injection E as <-. apply integer_iff in P. split; [|split].
      + intros z' h'. cbn [In]. split.
        * intros [X|[]]. injection X as <- <-. exists d. split; [exact A|]. split; [exact P|now left].
        * intros (d' & A' & P' & [O'|(N1 & _)]); [|now apply (no_last _ _ _ N1) in O]. pose proof (asn_one _ _ _ A A'). subst d'. pose proof (org_one _ _ _ O O'). subst h'.
          left. apply integer_iff in P, P'. congruence.
      + intros h' n. split; [intros [X|[]]; discriminate|]. intros (d' & _ & N1 & _). now apply (no_last _ _ _ N1) in O.
      + intros q [<-|[]]. left. now exists z, h.
    - destruct (pg_integer d) as [z|] eqn:P; [|discriminate]. destruct (has_nul n); [discriminate|]. injection E as <-. apply integer_iff in P. split; [|split].
      + intros z' h'. cbn [In]. split.
        * intros [X|[X|[]]]; [discriminate|]. injection X as <- <-. exists d. split; [exact A|]. split; [exact P|]. right. split; [exact O|]. split; [now exists n|reflexivity].
        * intros (d' & A' & P' & [O'|(_ & _ & ->)]); [now apply (no_last _ _ _ O) in O'|]. pose proof (asn_one _ _ _ A A'). subst d'.
          right. left. apply integer_iff in P, P'. unfold dummy_handle. congruence.
      + intros h' n'. cbn [In]. split.
        * intros [X|[X|[]]]; [|discriminate]. injection X as <- <-. exists d. auto.
        * intros (d' & A' & _ & D' & ->). pose proof (asn_one _ _ _ A A'). subst d'. pose proof (descr_one _ _ _ D D'). subst n'. now left.
      + intros q [<-|[<-|[]]]; [right; now exists (dummy_handle d), n|left; now exists z, (dummy_handle d)].
    - subst l. split; [|split; [|intros q []]].
      + intros z h. split; [intros []|]. intros (d' & A' & _ & [O'|(_ & (n & D') & _)]); [now apply (no_last _ _ _ O) in O'|now apply (no_first _ _ _ D) in D'].
      + intros h n. split; [intros []|]. intros (d' & _ & _ & D' & _). now apply (no_first _ _ _ D) in D'.
  Qed.
  Definition as_readable (b : list cstr) : Prop := forall d h, last_line asn_line b d -> handle_is b d h ->
      (exists z, integer d z) /\ (last_line org_line b h -> nul_free h) /\
      (no_line org_line b -> forall descr, first_line descr_line b descr -> nul_free descr).
  Lemma autnum_readable : forall b, autnum_block b <> None <-> as_readable b.
  Proof.
    intros b. unfold as_readable. pose proof (autnum_viewed b) as V. inversion V as [N0 E|d h A O E|d n A O D E|d A O D E].
    - split; [intros _ d h A; now apply (no_last _ _ _ N0) in A|discriminate].
    - split.
      + intros H d' h' A' H'. pose proof (asn_one _ _ _ A A'). subst d'. destruct (pg_integer d) as [z|] eqn:P; [|contradiction].
        destruct (has_nul h) eqn:Nu; [contradiction|]. split; [exists z; now apply integer_iff|]. split.
        * intros O'. pose proof (org_one _ _ _ O O'). subst h'. now apply nul_iff.
        * intros N1. now apply (no_last _ _ _ N1) in O.
      + intros H. destruct (H d h A (or_introl O)) as ((z & P) & Nu & _). apply integer_iff in P. rewrite P. specialize (Nu O). apply nul_iff in Nu. now rewrite Nu.
    - assert (Hd : handle_is b d (dummy_handle d)) by (right; split; [exact O|split; [now exists n|reflexivity]]). split.
      + intros H d' h' A' H'. pose proof (asn_one _ _ _ A A'). subst d'. destruct (pg_integer d) as [z|] eqn:P; [|contradiction].
        destruct (has_nul n) eqn:Nu; [contradiction|]. split; [exists z; now apply integer_iff|]. split.
        * intros O'. now apply (no_last _ _ _ O) in O'.
        * intros _ n' D'. pose proof (descr_one _ _ _ D D'). subst n'. now apply nul_iff.
      + intros H. destruct (H d _ A Hd) as ((z & P) & _ & Nu). apply integer_iff in P. rewrite P. specialize (Nu O n D). apply nul_iff in Nu. now rewrite Nu.
    - split; [|discriminate]. intros _ d' h _ [O'|(_ & (n & D') & _)]; [now apply (no_last _ _ _ O) in O'|now apply (no_first _ _ _ D) in D'].
  Qed.

  (** *** Organisations *)
  Notation name_line := (attr (txt "org-name")).
  Notation org_block := (org_block space upper).
  Definition handle_of := value_of (txt "organisation") (fun v => Some (upper v)).
  Definition name_of := value_of (txt "org-name") (fun v => Some v).
  Definition handle_iff := upper_iff (txt "organisation").
  Definition name_iff := plain_iff (txt "org-name").
  Lemma org_lines_is : forall b h n, org_lines space upper b h n = (fold_left (setter handle_of) b h, fold_left (setter name_of) b n).
  Proof.
    induction b as [|line b IH]; intros h n; [reflexivity|]. cbn [org_lines fold_left]. unfold setter at 2 4, handle_of, name_of, value_of.
    destruct (split_line line) as [k v]. destruct (cstr_eqb k (txt "organisation")) eqn:E1.
    - apply key_eq in E1. subst k. apply IH.
    - destruct (cstr_eqb k (txt "org-name")); apply IH.
  Qed.
  Lemma org_stmts : forall b l, org_block b = Some l ->
    (forall h n, In (PutOrg h n) l <-> last_line handle_line b h /\ last_line name_line b n) /\ (forall q, In q l -> exists h n, q = PutOrg h n).
  Proof.
    intros b l. unfold ModelWhois.org_block. rewrite org_lines_is.
    destruct (fold_left (setter handle_of) b None) as [h|] eqn:Hh; destruct (fold_left (setter name_of) b None) as [n|] eqn:Hn; try discriminate.
    - apply (last_set handle_of _ handle_iff) in Hh. apply (last_set name_of _ name_iff) in Hn. destruct (has_nul h || has_nul n); [discriminate|]. intros E. injection E as <-. split.
      + intros h' n'. cbn [In]. split; [intros [X|[]]; injection X as <- <-; auto|]. intros (H1 & H2). left.
        rewrite (last_one handle_of _ handle_iff _ _ _ Hh H1), (last_one name_of _ name_iff _ _ _ Hn H2). reflexivity.
      + intros q [<-|[]]. now exists h, n.
    - apply (last_unset handle_of _ handle_iff) in Hh. intros E. injection E as <-. split; [|intros q []]. intros h n. split; [intros []|].
      intros (H1 & _). now apply (no_last _ _ _ Hh) in H1.
  Qed.
  Lemma org_readable : forall b, (exists h, last_line handle_line b h) ->
    (org_block b <> None <-> exists h n, last_line handle_line b h /\ last_line name_line b n /\ nul_free h /\ nul_free n).
  Proof.
    intros b (h0 & H0). apply (last_set handle_of _ handle_iff) in H0. unfold ModelWhois.org_block. rewrite org_lines_is. rewrite H0. split.
    - destruct (fold_left (setter name_of) b None) as [n|] eqn:Hn; [|contradiction]. destruct (has_nul h0 || has_nul n) eqn:Nu; [contradiction|]. intros _.
      apply orb_false_iff in Nu as (N1 & N2). exists h0, n. split; [now apply (last_set handle_of _ handle_iff)|]. split; [now apply (last_set name_of _ name_iff)|].
      split; now apply nul_iff.
    - intros (h & n & H1 & H2 & N1 & N2). apply (last_set handle_of _ handle_iff) in H1. apply (last_set name_of _ name_iff) in H2. rewrite H2.
      replace h0 with h by congruence. apply nul_iff in N1, N2. now rewrite N1, N2.
  Qed.

  (** *** Networks *)
  Hypothesis Sp : forall c, 97 <= c <= 122 -> space c = false.
  Hypothesis Dg : digit 83 = false.
  Lemma stub_iff : forall s n, stub digit n s = true <->
    exists t c x, s = t ++ txt "SLASH" ++ c :: x /\ (3 <= n + length t)%nat /\ Forall (fun c => digit c = true \/ c = 45) t /\ digit c = true.
  Proof.
    induction s as [|c s IH]; intros n; cbn [stub].
    - split; [discriminate|]. intros (t & c & x & E & _). exfalso. destruct t; discriminate.
    - destruct (digit c || (c =? 45)) eqn:D.
      + rewrite IH. split.
        * intros (t & d & x & -> & L & F & Dd). exists (c :: t), d, x. split; [reflexivity|]. split; [cbn [length]; lia|]. split; [constructor; [|exact F]|exact Dd].
          apply orb_true_iff in D as [D|D]; [now left|right; lia].
        * intros ([|c' t] & d & x & E & L & F & Dd).
          -- exfalso. change (c :: s = 83 :: (txt "LASH" ++ d :: x)) in E. injection E as -> _. rewrite Dg in D. discriminate.
          -- cbn [app] in E. injection E as <- ->. exists t, d, x. split; [reflexivity|]. cbn [length] in L. split; [lia|]. split; [now apply Forall_cons_iff in F as [_ F]|exact Dd].
      + split.
        * intros H. apply andb_true_iff in H as (H & H3). apply andb_true_iff in H as (H1 & H2). apply starts_iff in H2 as (y & E).
          rewrite E in H3. change (skipn 5 (txt "SLASH" ++ y)) with y in H3. destruct y as [|d y]; [discriminate|]. exists [], d, y.
          split; [exact E|]. split; [cbn [length]; lia|]. split; [constructor|exact H3].
        * intros ([|c' t] & d & x & E & L & F & Dd).
          -- cbn [app] in E. cbn [length] in L. rewrite E. change (skipn 5 (txt "SLASH" ++ d :: x)) with (d :: x). cbn [digit_at]. rewrite Dd.
             replace (3 <=? n)%nat with true by lia. replace (starts (txt "SLASH") (txt "SLASH" ++ d :: x)) with true by (symmetry; apply starts_iff; now exists (d :: x)). reflexivity.
          -- cbn [app] in E. injection E as <- ->. apply Forall_cons_iff in F as [[F|F] _]; [rewrite F in D; discriminate|subst c]. rewrite orb_true_r in D. discriminate.
  Qed.
  Lemma at_iff : forall p s, starts p s && digit_at digit (skipn (length p) s) = true <-> exists c x, s = p ++ c :: x /\ digit c = true.
  Proof.
    intros p s. rewrite andb_true_iff, starts_iff. split.
    - intros ((y & ->) & H). rewrite skipn_app, skipn_all, Nat.sub_diag in H. cbn [app skipn] in H. destruct y as [|c y]; [discriminate|]. exists c, y. auto.
    - intros (c & x & -> & D). split; [now exists (c :: x)|]. rewrite skipn_app, skipn_all, Nat.sub_diag. exact D.
  Qed.
  Lemma foreign_iff : forall name, historic digit name = true <-> foreign digit name.
  Proof.
    intros name. unfold historic, foreign. rewrite !orb_true_iff. change 14%nat with (length (txt "IANA-NETBLOCK-")). rewrite at_iff. rewrite andb_true_iff, stub_iff, !starts_iff.
    split.
    - intros [[[[[[[H|H]|H]|H]|H]|H]|H]|((y & ->) & H)].
      + left. exists (txt "ERX-NETBLOCK"). split; [now left|exact H].
      + left. exists (txt "AFRINIC-CIDR-BLOCK"). split; [right; now left|exact H].
      + left. exists (txt "ARIN-CIDR-BLOCK"). split; [do 2 right; now left|exact H].
      + left. exists (txt "LACNIC-CIDR-BLOCK"). split; [do 3 right; now left|exact H].
      + left. exists (txt "RIPE-CIDR-BLOCK"). split; [do 4 right; now left|exact H].
      + right. now left.
      + left. exists (txt "NON-RIPE-NCC-MANAGED-ADDRESS-BLOCK"). split; [do 5 right; now left|exact H].
      + right. right. change (skipn 5 (txt "STUB-" ++ y)) with y in H. destruct H as (t & c & x & -> & L & F & D). exists t, c, x. auto.
    - intros [(p & [<-|[<-|[<-|[<-|[<-|[<-|[]]]]]]] & H)|[H|(t & c & x & -> & L & F & D)]].
      + do 7 left. exact H.
      + do 6 left. right. exact H.
      + do 5 left. right. exact H.
      + do 4 left. right. exact H.
      + do 3 left. right. exact H.
      + left. right. exact H.
      + do 2 left. right. exact H.
      + right. split; [eexists; reflexivity|]. change (skipn 5 (txt "STUB-" ++ t ++ txt "SLASH" ++ c :: x)) with (t ++ txt "SLASH" ++ c :: x). exists t, c, x. auto.
  Qed.
  Lemma strip_idem : forall s, strip space (strip space s) = strip space s.
  Proof.
    intros s. destruct (proj1 (strip_iff space s _) eq_refl) as (a & b & _ & _ & _ & H1 & H2). apply strip_iff. exists [], []. rewrite app_nil_r.
    split; [reflexivity|]. split; [constructor|]. split; [constructor|]. auto.
  Qed.
  Notation inetnum := (inetnum py_addr space py_net).
  Notation skips := (skips space digit py_addr py_net).
  Notation fails := (fails space py_addr py_net).
  Definition skipb (line : cstr) : bool :=
    let (k, v) := split_line line in
    (cstr_eqb k (txt "netname") && historic digit (strip space v)) || (cstr_eqb k (txt "inetnum") && match inetnum v with Skipped => true | _ => false end).
  Definition failb (line : cstr) : bool :=
    let (k, v) := split_line line in
    (cstr_eqb k (txt "inetnum") && match inetnum v with Raised => true | _ => false end) || (cstr_eqb k (txt "inet6num") && match py_net v with None => true | _ => false end).
  Lemma skipb_iff : forall line, skipb line = true <-> skips line.
  Proof.
    intros line. unfold skipb, SpecWhois.skips. destruct (split_line line) as [k v] eqn:E.
    assert (Vs : strip space v = v). { unfold ModelWhois.split_line in E. destruct (partition COLON line) as [x [y|]]; injection E as <- <-; apply strip_idem. }
    assert (At : forall key u, attr key line u <-> k = key /\ v = u) by (intros; rewrite attr_iff, E; split; [intros X; split; congruence|intros (-> & ->); reflexivity]).
    rewrite orb_true_iff, !andb_true_iff, !key_eq, foreign_iff, Vs. split.
    - intros [(-> & F)|(-> & F)]; [left|right]; exists v; (split; [now apply At|]); [exact F|]. destruct (inetnum v); congruence.
    - intros [(u & A & F)|(u & A & F)]; apply At in A as (-> & ->); [left; auto|right]. split; [reflexivity|]. now rewrite F.
  Qed.
  Lemma failb_iff : forall line, failb line = true <-> fails line.
  Proof.
    intros line. unfold failb, SpecWhois.fails. destruct (split_line line) as [k v] eqn:E.
    assert (At : forall key u, attr key line u <-> k = key /\ v = u) by (intros; rewrite attr_iff, E; split; [intros X; split; congruence|intros (-> & ->); reflexivity]).
    rewrite orb_true_iff, !andb_true_iff, !key_eq. split.
    - intros [(-> & F)|(-> & F)]; [left|right]; exists v; (split; [now apply At|]); [destruct (inetnum v)|destruct (py_net v)]; congruence.
    - intros [(u & A & F)|(u & A & F)]; apply At in A as (-> & ->); [left|right]; (split; [reflexivity|]); now rewrite F.
  Qed.
  Definition six_of := value_of (txt "inet6num") (fun v => match py_net v with Some n => Some [n] | None => None end).
  Definition four_of := value_of (txt "inetnum") (fun v => match inetnum v with Row l => Some l | _ => None end).
  Definition cc_of := value_of (txt "country") (fun v =>
    if existsb (cstr_eqb (upper v)) ignored_countries then None else if negb (existsb (cstr_eqb (translate (upper v))) countries) then None else Some (translate (upper v))).
  Definition geo_of (line : cstr) : option cstr :=
    match value_of (txt "geofeed") (fun v => Some v) line with Some x => Some x | None => value_of (txt "remarks") (match_remark space) line end.
  Definition opt_list {A} (o : option A) : list A := match o with Some x => [x] | None => [] end.
  Lemma lines_step : forall line b i, inet_lines space digit upper py_addr py_net countries (line :: b) i =
    if skipb line then Skipped else if failb line then Raised
    else inet_lines space digit upper py_addr py_net countries b
           (mkInet (setter six_of (i_six i) line) (setter four_of (i_four i) line) (i_countries i ++ opt_list (cc_of line)) (setter geo_of (i_geofeed i) line)).
  Proof.
    intros line b [six four cs geo]. cbn [inet_lines]. unfold skipb, failb, setter, six_of, four_of, cc_of, geo_of, value_of. cbn [i_six i_four i_countries i_geofeed].
    destruct (split_line line) as [k v]. destruct (cstr_eqb k (txt "netname")) eqn:E1.
    - apply key_eq in E1. subst k. destruct (historic digit (strip space v)); [reflexivity|]. cbn -[inet_lines]. now rewrite app_nil_r.
    - destruct (cstr_eqb k (txt "inetnum")) eqn:E2.
      + apply key_eq in E2. subst k. cbn -[inet_lines ModelImport.inetnum]. destruct (inetnum v); cbn -[inet_lines ModelImport.inetnum]; now rewrite ?app_nil_r.
      + destruct (cstr_eqb k (txt "inet6num")) eqn:E3.
        * apply key_eq in E3. subst k. cbn -[inet_lines]. destruct (py_net v); cbn -[inet_lines]; now rewrite ?app_nil_r.
        * destruct (cstr_eqb k (txt "country")) eqn:E4.
          -- apply key_eq in E4. subst k. cbn -[inet_lines existsb translate]. destruct (existsb _ ignored_countries); cbn -[inet_lines existsb translate]; [now rewrite app_nil_r|].
             destruct (existsb _ countries); cbn -[inet_lines existsb translate]; now rewrite ?app_nil_r.
          -- destruct (cstr_eqb k (txt "geofeed")) eqn:E5.
             ++ cbn -[inet_lines]. now rewrite app_nil_r.
             ++ destruct (cstr_eqb k (txt "remarks")) eqn:E6; cbn -[inet_lines match_remark]; [destruct (match_remark space v); cbn -[inet_lines]|]; now rewrite app_nil_r.
  Qed.
  Notation inet_lines := (inet_lines space digit upper py_addr py_net countries).
  Lemma lines_row : forall b i r, inet_lines b i = Row r <->
    (forall l, In l b -> skipb l = false /\ failb l = false) /\
    r = mkInet (fold_left (setter six_of) b (i_six i)) (fold_left (setter four_of) b (i_four i)) (i_countries i ++ concat (map (fun l => opt_list (cc_of l)) b))
          (fold_left (setter geo_of) b (i_geofeed i)).
  Proof.
    induction b as [|line b IH]; intros i r.
    - cbn [ModelWhois.inet_lines fold_left map concat]. rewrite app_nil_r. destruct i as [six four cs geo]. cbn [i_six i_four i_countries i_geofeed]. split.
      + intros E. injection E as <-. split; [intros ? []|reflexivity].
      + intros (_ & ->). reflexivity.
    - rewrite lines_step. cbn [fold_left map concat]. destruct (skipb line) eqn:Sk; [split; [discriminate|intros (H & _); destruct (H line (or_introl eq_refl)); congruence]|].
      destruct (failb line) eqn:Fa; [split; [discriminate|intros (H & _); destruct (H line (or_introl eq_refl)); congruence]|].
      rewrite IH. cbn [i_six i_four i_countries i_geofeed]. rewrite <- app_assoc. split; intros (H & E); (split; [|exact E]).
      + intros l [<-|I1]; [auto|now apply H].
      + intros l I1. apply H. now right.
  Qed.
  Lemma lines_raised : forall b i, inet_lines b i = Raised <-> exists x l y, b = x ++ l :: y /\ failb l = true /\ forall l', In l' (x ++ [l]) -> skipb l' = false.
  Proof.
    induction b as [|line b IH]; intros i.
    - cbn [ModelWhois.inet_lines]. split; [discriminate|]. intros (x & l & y & E & _). now destruct x.
    - rewrite lines_step. destruct (skipb line) eqn:Sk.
      + split; [discriminate|]. intros (x & l & y & E & _ & H). exfalso. assert (skipb line = false); [|congruence]. apply H. destruct x; cbn [app] in E; injection E as -> _; now left.
      + destruct (failb line) eqn:Fa.
        * split; [|reflexivity]. intros _. exists [], line, b. split; [reflexivity|]. split; [exact Fa|]. intros l' [<-|[]]. exact Sk.
        * rewrite IH. split.
          -- intros (x & l & y & -> & F & H). exists (line :: x), l, y. split; [reflexivity|]. split; [exact F|]. intros l' [<-|I1]; [exact Sk|now apply H].
          -- intros ([|l0 x] & l & y & E & F & H); cbn [app] in E; injection E as -> ->; [congruence|]. exists x, l, y. split; [reflexivity|]. split; [exact F|].
             intros l' I1. apply H. now right.
  Qed.

  Notation six_line := (six_line space py_net).
  Notation four_line := (four_line space py_addr py_net).
  Notation cc_line := (SpecWhois.country_line space upper countries).
  Notation geofeed_line := (geofeed_line space).
  Lemma six_iff : forall line l, six_of line = Some l <-> six_line line l.
  Proof.
    intros line l. unfold six_of. rewrite value_iff. split.
    - intros (v & A & E). destruct (py_net v) as [n|] eqn:P; [|discriminate]. exists v, n. split; [exact A|]. split; [exact P|congruence].
    - intros (v & n & A & P & ->). exists v. split; [exact A|]. now rewrite P.
  Qed.
  Lemma four_iff : forall line l, four_of line = Some l <-> four_line line l.
  Proof.
    intros line l. unfold four_of. rewrite value_iff. split; intros (v & A & E); exists v; (split; [exact A|]); [destruct (inetnum v); congruence|now rewrite E].
  Qed.
  Lemma existsb_eq : forall (s : cstr) l, existsb (cstr_eqb s) l = true <-> In s l.
  Proof.
    intros s l. rewrite existsb_exists. split; [intros (x & I1 & E); apply key_eq in E; now subst x|]. intros I1. exists s. split; [exact I1|now apply key_eq].
  Qed.
  Lemma country_of_iff : forall cc c,
    (if existsb (cstr_eqb cc) ignored_countries then None else if negb (existsb (cstr_eqb (translate cc)) countries) then None else Some (translate cc)) = Some c <-> country_of countries cc c.
  Proof.
    intros cc c. unfold country_of. assert (T : forall c, translate cc = c <-> (cc = txt "UK" /\ c = txt "GB") \/ (cc <> txt "UK" /\ c = cc)).
    { intros d. unfold translate. destruct (cstr_eqb cc (txt "UK")) eqn:E.
      - apply key_eq in E. split; [intros <-; left; auto|]. intros [(_ & ->)|(N0 & _)]; [reflexivity|contradiction].
      - assert (cc <> txt "UK") by (intros X; apply key_eq in X; congruence). split; [intros <-; right; auto|]. intros [(X & _)|(_ & ->)]; [contradiction|reflexivity]. }
    rewrite <- T. destruct (existsb (cstr_eqb cc) ignored_countries) eqn:Ig.
    - apply existsb_eq in Ig. split; [discriminate|]. intros (N1 & N2 & _). exfalso. destruct Ig as [X|[X|[]]]; [apply N1|apply N2]; now symmetry.
    - assert (N0 : cc <> txt "YU" /\ cc <> txt "ZZ").
      { split; intros X; (assert (existsb (cstr_eqb cc) ignored_countries = true); [apply existsb_eq; subst cc; unfold ignored_countries; cbn [In]; auto|congruence]). }
      destruct (existsb (cstr_eqb (translate cc)) countries) eqn:Kn; cbn [negb].
      + apply existsb_eq in Kn. split; [intros E; injection E as <-; tauto|]. intros (_ & _ & _ & ->). reflexivity.
      + split; [discriminate|]. intros (_ & _ & I1 & <-). apply existsb_eq in I1. congruence.
  Qed.
  Lemma cc_iff : forall line c, cc_of line = Some c <-> cc_line line c.
  Proof.
    intros line c. unfold cc_of. rewrite value_iff. unfold SpecWhois.country_line. split; intros (v & A & E); exists v; (split; [exact A|]); now apply country_of_iff.
  Qed.
  Lemma all_iff : forall b, all_lines cc_line b (concat (map (fun l => opt_list (cc_of l)) b)).
  Proof.
    induction b as [|l b IH]; [constructor|]. cbn [map concat]. destruct (cc_of l) as [c|] eqn:E; cbn [opt_list app].
    - apply all_take; [now apply cc_iff|exact IH].
    - apply all_skip; [|exact IH]. apply (g_none cc_of _ cc_iff). exact E.
  Qed.
  Lemma all_one : forall b r r', all_lines cc_line b r -> all_lines cc_line b r' -> r = r'.
  Proof.
    intros b r r' H. revert r'. induction H as [|l b r N0 H IH|l b a r Ha H IH]; intros r' H'; inversion H' as [|l' b' r0 N1 H1 E1 E2|l' b' a' r0 Ha' H1 E1 E2]; subst.
    - reflexivity.
    - now apply IH.
    - now apply N0 in Ha'.
    - now apply N1 in Ha.
    - f_equal; [|now apply IH]. apply cc_iff in Ha, Ha'. congruence.
  Qed.
  Lemma remark_iff : forall v url, match_remark space v = Some url <->
    exists sp, v = txt "Geofeed" ++ sp ++ url /\ sp <> [] /\ Forall (fun c => space c = true) sp /\ begins (txt "https://") url.
  Proof.
    intros v url. unfold match_remark. split.
    - destruct (starts (txt "Geofeed") v) eqn:St; [|discriminate]. apply starts_iff in St as (y & ->). change (skipn 7 (txt "Geofeed" ++ y)) with y.
      destruct y as [|c y]; [discriminate|]. destruct (space c) eqn:Sc; [|discriminate]. destruct (starts (txt "https://") (lstrip space y)) eqn:H; [|discriminate].
      intros E. injection E as <-. apply starts_iff in H. destruct (lstrip_spec space y) as (a & E & A & _). exists (c :: a).
      split; [cbn [app]; rewrite <- E; reflexivity|]. split; [discriminate|]. split; [constructor; [exact Sc|exact A]|exact H].
    - intros (sp & -> & N0 & F & B). replace (starts (txt "Geofeed") (txt "Geofeed" ++ sp ++ url)) with true by (symmetry; apply starts_iff; now exists (sp ++ url)).
      change (skipn 7 (txt "Geofeed" ++ sp ++ url)) with (sp ++ url). destruct sp as [|c a]; [contradiction|]. cbn [app]. apply Forall_cons_iff in F as [Sc F]. rewrite Sc.
      assert (L : lstrip space (a ++ url) = url).
      { clear -F B Sp. induction a as [|c a IH]; cbn [app].
        - destruct B as (y & ->). change (txt "https://" ++ y) with (104 :: (txt "ttps://" ++ y)). cbn [lstrip]. now rewrite (Sp 104) by lia.
        - apply Forall_cons_iff in F as [Sc F]. cbn [lstrip]. rewrite Sc. now apply IH. }
      cbn zeta. rewrite L. apply starts_iff in B. now rewrite B.
  Qed.
  Lemma geo_iff : forall line url, geo_of line = Some url <-> geofeed_line line url.
  Proof.
    intros line url. unfold geo_of, SpecWhois.geofeed_line. split.
    - destruct (value_of (txt "geofeed") (fun v => Some v) line) as [x|] eqn:E; [intros H; left; apply plain_iff; congruence|].
      intros H. right. apply value_iff in H as (v & A & H). apply remark_iff in H as (sp & H). now exists v, sp.
    - intros [A|(v & sp & A & H)]; [apply plain_iff in A; now rewrite A|].
      destruct (value_of (txt "geofeed") (fun v => Some v) line) as [x|] eqn:E.
      + apply plain_iff in E. apply attr_iff in E, A. rewrite A in E. discriminate.
      + apply value_iff. exists v. split; [exact A|]. apply remark_iff. now exists sp.
  Qed.

  Notation acceptable := (acceptable is_global is_unspecified).
  Notation https_url := (https_url urlparse).
  Notation net_stmts := (net_stmts is_global is_unspecified urlparse).
  Lemma geofeed_stmts_is : forall g n, geofeed_stmts urlparse g n =
    match g with
    | Some ((_ :: _) as text) => match urlparse text with
        | Some (scheme, (_ :: _) as url) => if cstr_eqb scheme (txt "https") then if has_nul url then None else Some [PutLink n url] else Some []
        | _ => Some []
        end
    | _ => Some []
    end.
  Proof.
    intros [[|c text]|] n; cbn [geofeed_stmts]; try reflexivity. unfold check_geofeed_url. destruct (urlparse (c :: text)) as [[scheme [|u url]]|]; try reflexivity;
      destruct (cstr_eqb scheme (txt "https")); reflexivity.
  Qed.
  Lemma geofeed_some : forall g n l, geofeed_stmts urlparse g n = Some l ->
    (forall m url, In (PutLink m url) l <-> m = n /\ exists text, g = Some text /\ text <> [] /\ https_url text url) /\ forall q, In q l -> exists url, q = PutLink n url.
  Proof.
    intros g n l H. rewrite geofeed_stmts_is in H. destruct g as [[|c text]|].
    - injection H as <-. split; [|intros q []]. intros m url. split; [intros []|]. intros (_ & text & E & N0 & _). congruence.
    - destruct (urlparse (c :: text)) as [[scheme [|u url0]]|] eqn:U.
      + injection H as <-. split; [|intros q []]. intros m url. split; [intros []|]. intros (_ & text' & E & _ & (E2 & N0)). congruence.
      + destruct (cstr_eqb scheme (txt "https")) eqn:Sc.
        * apply key_eq in Sc. subst scheme.  destruct (has_nul (u :: url0)); [discriminate|]. injection H as <-. split.
          -- intros m url. cbn [In]. split.
             ++ intros [X|[]]. injection X as <- <-. split; [reflexivity|]. exists (c :: text). split; [reflexivity|]. split; [discriminate|]. split; [exact U|discriminate].
             ++ intros (-> & text' & E & _ & (E2 & _)). left. congruence.
          -- intros q [<-|[]]. now exists (u :: url0).
        * injection H as <-. split; [|intros q []]. intros m url. split; [intros []|]. intros (_ & text' & E & _ & (E2 & _)). exfalso.
          assert (scheme = txt "https") by congruence. apply key_eq in H. congruence.
      + injection H as <-. split; [|intros q []]. intros m url. split; [intros []|]. intros (_ & text' & E & _ & (E2 & _)). congruence.
    - injection H as <-. split; [|intros q []]. intros m url. split; [intros []|]. intros (_ & text & E & _). discriminate.
  Qed.
  Lemma geofeed_none : forall g n, geofeed_stmts urlparse g n = None <-> exists text url, g = Some text /\ text <> [] /\ https_url text url /\ has_nul url = true.
  Proof.
    intros g n. rewrite geofeed_stmts_is. split.
    - destruct g as [[|c text]|]; try discriminate. destruct (urlparse (c :: text)) as [[scheme [|u url0]]|] eqn:U; try discriminate.
      destruct (cstr_eqb scheme (txt "https")) eqn:Sc; [|discriminate]. apply key_eq in Sc. subst scheme. destruct (has_nul (u :: url0)) eqn:Nu; [|discriminate].
      intros _. exists (c :: text), (u :: url0). split; [reflexivity|]. split; [discriminate|]. split; [split; [exact U|discriminate]|exact Nu].
    - intros (text & url & -> & N0 & (U & N1) & Nu). destruct text as [|c text]; [contradiction|]. rewrite U. destruct url as [|u url]; [contradiction|].
      rewrite Nu. replace (cstr_eqb (txt "https") (txt "https")) with true by reflexivity. reflexivity.
  Qed.
  Lemma net_some : forall cs g l r, net_stmts cs g l = Some r ->
    (forall n cc all, In (PutNet n cc all) r <-> In n l /\ acceptable n /\ cc = hd_error cs /\ all = cs) /\
    (forall n url, In (PutLink n url) r <-> In n l /\ acceptable n /\ exists text, g = Some text /\ text <> [] /\ https_url text url) /\
    (forall q, In q r -> (exists n cc all, q = PutNet n cc all) \/ exists n url, q = PutLink n url).
  Proof.
    intros cs g. induction l as [|n l IH]; intros r H; cbn [ModelWhois.net_stmts] in H.
    - injection H as <-. split; [|split; [|intros q []]]; intros; (split; [intros []|intros ([] & _)]).
    - destruct (check_parsed_network is_global is_unspecified n) eqn:C.
      + apply check_iff in C. destruct (geofeed_stmts urlparse g n) as [gl|] eqn:G; [|discriminate].
        destruct (net_stmts cs g l) as [rl|] eqn:R; [|discriminate]. injection H as <-. destruct (IH _ eq_refl) as (H1 & H2 & H3). destruct (geofeed_some _ _ _ G) as (G1 & G2).
        split; [|split].
        * intros m cc all. cbn [In]. rewrite in_app_iff, H1. split.
          -- intros [X|[X|X]]; [injection X as <- <- <-; auto|apply G2 in X as (url & X); discriminate|tauto].
          -- intros ([<-|I1] & A & -> & ->); [now left|right; right; auto].
        * intros m url. cbn [In]. rewrite in_app_iff, H2, G1. split.
          -- intros [X|[(-> & X)|X]]; [discriminate|auto|tauto].
          -- intros ([<-|I1] & A & X); [right; left; auto|right; right; auto].
        * intros q [<-|X]; [left; eauto|]. apply in_app_or in X as [X|X]; [right; apply G2 in X as (url & ->); eauto|now apply H3].
      + destruct (IH _ H) as (H1 & H2 & H3). assert (Na : ~ acceptable n) by (rewrite <- check_iff; congruence).
        split; [|split; [|exact H3]].
        * intros m cc all. rewrite H1. cbn [In]. split; [tauto|]. intros ([<-|I1] & A & X); [contradiction|auto].
        * intros m url. rewrite H2. cbn [In]. split; [tauto|]. intros ([<-|I1] & A & X); [contradiction|auto].
  Qed.
  Lemma net_none : forall cs g l, net_stmts cs g l = None <->
    exists n, In n l /\ acceptable n /\ exists text url, g = Some text /\ text <> [] /\ https_url text url /\ has_nul url = true.
  Proof.
    intros cs g. induction l as [|n l IH]; cbn [ModelWhois.net_stmts].
    - split; [discriminate|intros (n & [] & _)].
    - destruct (check_parsed_network is_global is_unspecified n) eqn:C.
      + apply check_iff in C. destruct (geofeed_stmts urlparse g n) as [gl|] eqn:G.
        * destruct (net_stmts cs g l) as [rl|] eqn:R.
          -- split; [discriminate|]. intros (m & [<-|I1] & A & X); [apply (geofeed_none g n) in X; congruence|].
             assert (Y : Some rl = None) by (apply IH; now exists m). discriminate.
          -- split; [|reflexivity]. intros _. destruct (proj1 IH eq_refl) as (m & I1 & X). exists m. split; [now right|exact X].
        * split; [|reflexivity]. intros _. apply geofeed_none in G. exists n. split; [now left|]. auto.
      + rewrite IH. assert (Na : ~ acceptable n) by (rewrite <- check_iff; congruence). split.
        * intros (m & I1 & X). exists m. split; [now right|exact X].
        * intros (m & [<-|I1] & A & X); [contradiction|]. exists m. auto.
  Qed.
  Lemma lines_skipped : forall b i, inet_lines b i = Skipped -> exists l, In l b /\ skipb l = true.
  Proof.
    induction b as [|line b IH]; intros i; [discriminate|]. rewrite lines_step. destruct (skipb line) eqn:Sk; [intros _; exists line; split; [now left|exact Sk]|].
    destruct (failb line); [discriminate|]. intros H. apply IH in H as (l & I1 & H). exists l. split; [now right|exact H].
  Qed.
  Lemma skip_fail : forall line, skipb line = true -> failb line = false.
  Proof.
    intros line. unfold skipb, failb. destruct (split_line line) as [k v]. destruct (cstr_eqb k (txt "inetnum")) eqn:E1.
    - apply key_eq in E1. subst k. cbn -[ModelImport.inetnum]. destruct (inetnum v); [discriminate|reflexivity|discriminate].
    - destruct (cstr_eqb k (txt "inet6num")) eqn:E2; [|intros _; reflexivity]. apply key_eq in E2. subst k. cbn. discriminate.
  Qed.
  Lemma strip_word : forall a s z, 97 <= a <= 122 -> 97 <= z <= 122 -> strip space (a :: s ++ [z]) = a :: s ++ [z].
  Proof.
    intros a s z A Z. apply strip_iff. exists [], []. split; [now rewrite app_nil_r|]. split; [constructor|]. split; [constructor|]. split.
    - intros c x E. injection E as <- _. now apply Sp.
    - intros x c E. change (a :: s ++ [z]) with ((a :: s) ++ [z]) in E. apply app_inj_tail in E as [_ <-]. now apply Sp.
  Qed.
  Lemma typed_attr : forall key line, plain COLON key -> strip space key = key -> begins (key ++ [COLON]) line -> exists v, attr key line v.
  Proof.
    intros key line P E (x & ->). exists (strip space x). exists key, x. split; [now apply strip_iff|]. split; [now apply strip_iff|]. split; [exact P|]. left. now rewrite <- app_assoc.
  Qed.
  Lemma key_attr : forall key a s z line, key = a :: s ++ [z] -> forallb (fun c => negb (c =? COLON)) key = true -> 97 <= a <= 122 -> 97 <= z <= 122 ->
    begins (key ++ [COLON]) line -> exists v, attr key line v.
  Proof.
    intros key a s z line E P A Z B. apply typed_attr; [|rewrite E; now apply strip_word|exact B].
    rewrite forallb_forall in P. intros I1. apply P in I1. unfold COLON in I1. discriminate.
  Qed.
  Lemma six_attr : forall line, begins (txt "inet6num:") line -> exists v, attr (txt "inet6num") line v.
  Proof. intros line B. apply (key_attr (txt "inet6num") 105 (txt "net6nu") 109); [reflexivity|reflexivity|lia|lia|exact B]. Qed.
  Lemma four_attr : forall line, begins (txt "inetnum:") line -> exists v, attr (txt "inetnum") line v.
  Proof. intros line B. apply (key_attr (txt "inetnum") 105 (txt "netnu") 109); [reflexivity|reflexivity|lia|lia|exact B]. Qed.
  Lemma org_attr : forall line, begins (txt "organisation:") line -> exists v, attr (txt "organisation") line v.
  Proof. intros line B. apply (key_attr (txt "organisation") 111 (txt "rganisatio") 110); [reflexivity|reflexivity|lia|lia|exact B]. Qed.

  Notation nets_are := (nets_are space py_addr py_net).
  Notation net_block := (net_block space digit py_addr py_net is_global is_unspecified).
  Notation inetnum_block := (inetnum_block space digit upper py_addr py_net is_global is_unspecified urlparse countries).
  Definition six_set := last_set six_of _ six_iff.
  Definition six_unset := last_unset six_of _ six_iff.
  Definition four_set := last_set four_of _ four_iff.
  Definition geo_set := last_set geo_of _ geo_iff.
  Lemma clean_nets : forall b, inet_type b -> (forall l, In l b -> skipb l = false /\ failb l = false) -> exists l, nets_are b l.
  Proof.
    intros b T H. assert (X : (exists l v, In l b /\ six_line l v) \/ exists l v, In l b /\ four_line l v).
    { destruct T as [(l & r & -> & B)|(l & r & -> & B)].
      - left. destruct (six_attr l B) as (v & A). destruct (H l (or_introl eq_refl)) as (_ & F). destruct (py_net v) as [n|] eqn:E.
        + exists l, [n]. split; [now left|]. exists v, n. auto.
        + assert (failb l = true); [|congruence]. apply failb_iff. right. now exists v.
      - right. destruct (four_attr l B) as (v & A). destruct (H l (or_introl eq_refl)) as (Sk & F). destruct (inetnum v) as [ns| |] eqn:E.
        + exists l, ns. split; [now left|]. now exists v.
        + assert (skipb l = true); [|congruence]. apply skipb_iff. right. now exists v.
        + assert (failb l = true); [|congruence]. apply failb_iff. left. now exists v. }
    destruct (fold_left (setter six_of) b None) as [l|] eqn:S6; [exists l; left; now apply six_set|]. apply six_unset in S6.
    destruct X as [(l & v & I1 & X)|(l & v & I1 & X)]; [now apply (S6 l v I1) in X|].
    destruct (last_some four_of _ four_iff b l v I1 X) as (ns & L). exists ns. right. auto.
  Qed.
  Lemma nets_one : forall b l l', nets_are b l -> nets_are b l' -> l = l'.
  Proof.
    intros b l l' [H|(N0 & H)] [H'|(N1 & H')].
    - exact (last_one six_of _ six_iff _ _ _ H H').
    - now apply (no_last six_line b l) in N1.
    - now apply (no_last six_line b l') in N0.
    - exact (last_one four_of _ four_iff _ _ _ H H').
  Qed.
  Lemma block_row : forall b, inet_type b -> (forall l, In l b -> skipb l = false /\ failb l = false) -> exists l, nets_are b l /\
    inetnum_block b = net_stmts (concat (map (fun l => opt_list (cc_of l)) b)) (fold_left (setter geo_of) b None) l.
  Proof.
    intros b T H. destruct (clean_nets b T H) as (l & L). exists l. split; [exact L|]. unfold ModelWhois.inetnum_block.
    rewrite (proj2 (lines_row b (mkInet None None [] None) _) (conj H eq_refl)). cbn [i_six i_four i_countries i_geofeed app].
    destruct L as [L|(N0 & L)].
    - pose proof L as L6. apply six_set in L. rewrite L. destruct L6 as (x & line & y & _ & (v & n & _ & _ & ->) & _). reflexivity.
    - apply six_unset in N0. rewrite N0. apply four_set in L. now rewrite L.
  Qed.
  Lemma not_clean : forall b, (forall l, In l b -> skipb l = false /\ failb l = false) \/ (exists l, In l b /\ skipb l = true) \/
    ((forall l, In l b -> skipb l = false) /\ exists l, In l b /\ failb l = true).
  Proof.
    induction b as [|line b IH]; [left; intros l []|]. destruct (skipb line) eqn:Sk; [right; left; exists line; split; [now left|exact Sk]|].
    destruct IH as [H|[(l & I1 & H)|(H & l & I1 & F)]].
    - destruct (failb line) eqn:Fa.
      + right. right. split; [intros l [<-|I1]; [exact Sk|now apply H]|]. exists line. split; [now left|exact Fa].
      + left. intros l [<-|I1]; [auto|now apply H].
    - right. left. exists l. split; [now right|exact H].
    - right. right. split; [intros l' [<-|I2]; [exact Sk|now apply H]|]. exists l. split; [now right|exact F].
  Qed.
  Lemma block_skips : forall b n l, In l b -> skipb l = true -> ~ net_block b n.
  Proof. intros b n l I1 Sk (_ & H & _). apply (H l I1). now apply skipb_iff. Qed.
  Lemma inetnum_stmts : forall b l, inet_type b -> inetnum_block b = Some l ->
    (forall n cc all, In (PutNet n cc all) l <-> net_block b n /\ all_lines cc_line b all /\ cc = hd_error all) /\
    (forall n url, In (PutLink n url) l <-> exists text, net_block b n /\ last_line geofeed_line b text /\ text <> [] /\ https_url text url) /\
    (forall q, In q l -> (exists n cc all, q = PutNet n cc all) \/ exists n url, q = PutLink n url).
  Proof.
    intros b l T H. destruct (not_clean b) as [C|[(k & I1 & Sk)|(C & k & I1 & F)]].
    - destruct (block_row b T C) as (ns & L & E). rewrite E in H. apply net_some in H as (H1 & H2 & H3).
      assert (B : forall n, net_block b n <-> In n ns /\ acceptable n).
      { intros n. split.
        - intros (_ & _ & (ns' & L' & I1) & A). rewrite (nets_one b ns ns' L L'). auto.
        - intros (I1 & A). split; [exact T|]. split; [intros k I2 Sk; apply skipb_iff in Sk; destruct (C k I2); congruence|]. split; [now exists ns|exact A]. }
      split; [|split; [|exact H3]].
      + intros n cc all. rewrite H1, B. split.
        * intros (I1 & A & -> & ->). split; [auto|]. split; [apply all_iff|reflexivity].
        * intros ((I1 & A) & Al & ->). rewrite (all_one b all _ Al (all_iff b)). auto.
      + intros n url. rewrite H2. split.
        * intros (I1 & A & text & G & X). exists text. split; [now apply B|]. split; [now apply geo_set|exact X].
        * intros (text & Bn & G & X). apply B in Bn as (I1 & A). split; [exact I1|]. split; [exact A|]. exists text. split; [now apply geo_set|exact X].
    - assert (l = []).
      { unfold ModelWhois.inetnum_block in H. destruct (inet_lines b (mkInet None None [] None)) as [r| |] eqn:E; [|congruence|discriminate].
        apply lines_row in E as (E & _). destruct (E k I1); congruence. }
      subst l. split; [|split; [|intros q []]].
      + intros n cc all. split; [intros []|]. intros (Bn & _). exact (block_skips b n k I1 Sk Bn).
      + intros n url. split; [intros []|]. intros (text & Bn & _). exact (block_skips b n k I1 Sk Bn).
    - exfalso. unfold ModelWhois.inetnum_block in H. apply in_split in I1 as (x & y & ->).
      rewrite (proj2 (lines_raised (x ++ k :: y) (mkInet None None [] None))) in H; [discriminate|].
      exists x, k, y. split; [reflexivity|]. split; [exact F|]. intros l' I2. apply C. apply in_or_app. apply in_app_or in I2 as [I2|[<-|[]]]; [now left|right; now left].
  Qed.
  Lemma inetnum_readable : forall b, inet_type b -> (inetnum_block b <> None <->
    (forall x l y, b = x ++ l :: y -> fails l -> exists l', In l' x /\ skips l') /\
    forall n text url, net_block b n -> last_line geofeed_line b text -> text <> [] -> https_url text url -> nul_free url).
  Proof.
    intros b T. split.
    - intros H. split.
      + intros x l y -> F. destruct (not_clean x) as [C|[(k & I1 & Sk)|(C & k & I1 & F')]].
        * exfalso. apply H. unfold ModelWhois.inetnum_block. rewrite (proj2 (lines_raised (x ++ l :: y) (mkInet None None [] None))); [reflexivity|].
          apply failb_iff in F. exists x, l, y. split; [reflexivity|]. split; [exact F|]. intros l' I1. apply in_app_or in I1 as [I1|[<-|[]]]; [now apply C|].
          destruct (skipb l) eqn:Sk; [|reflexivity]. apply skip_fail in Sk. congruence.
        * exists k. split; [exact I1|now apply skipb_iff].
        * exfalso. apply H. unfold ModelWhois.inetnum_block. apply in_split in I1 as (x1 & x2 & ->).
          rewrite (proj2 (lines_raised ((x1 ++ k :: x2) ++ l :: y) (mkInet None None [] None))); [reflexivity|].
          exists x1, k, (x2 ++ l :: y). split; [now rewrite <- app_assoc|]. split; [exact F'|]. intros l' I1. apply C. apply in_or_app. apply in_app_or in I1 as [I1|[<-|[]]]; [now left|right; now left].
      + intros n text url Bn G N0 Hu. apply nul_iff. destruct (has_nul url) eqn:Nu; [|reflexivity]. exfalso.
        destruct (not_clean b) as [C|[(k & I1 & Sk)|(C & k & I1 & F)]].
        * destruct (block_row b T C) as (ns & L & E). apply H. rewrite E. apply net_none. destruct Bn as (_ & _ & (ns' & L' & I1) & A).
          exists n. rewrite (nets_one b ns ns' L L'). split; [exact I1|]. split; [exact A|]. exists text, url. split; [now apply geo_set|auto].
        * exact (block_skips b n k I1 Sk Bn).
        * apply H. unfold ModelWhois.inetnum_block. apply in_split in I1 as (x & y & ->).
          rewrite (proj2 (lines_raised (x ++ k :: y) (mkInet None None [] None))); [reflexivity|].
          exists x, k, y. split; [reflexivity|]. split; [exact F|]. intros l' I2. apply C. apply in_or_app. apply in_app_or in I2 as [I2|[<-|[]]]; [now left|right; now left].
    - intros (Hf & Hn) E. destruct (not_clean b) as [C|[(k & I1 & Sk)|(C & k & I1 & F)]].
      + destruct (block_row b T C) as (ns & L & E'). rewrite E' in E. apply net_none in E as (n & I1 & A & text & url & G & N0 & Hu & Nu).
        assert (has_nul url = false); [|congruence]. apply nul_iff. apply (Hn n text url); [|now apply geo_set|exact N0|exact Hu].
        split; [exact T|]. split; [intros k I2 Sk; apply skipb_iff in Sk; destruct (C k I2); congruence|]. split; [now exists ns|exact A].
      + unfold ModelWhois.inetnum_block in E. destruct (inet_lines b (mkInet None None [] None)) as [r| |] eqn:R; [|discriminate|].
        * apply lines_row in R as (R & _). destruct (R k I1); congruence.
        * apply lines_raised in R as (x & l & y & -> & F & R). apply failb_iff in F. destruct (Hf x l y eq_refl F) as (l' & I2 & S2).
          apply skipb_iff in S2. rewrite R in S2 by (apply in_or_app; now left). discriminate.
      + apply in_split in I1 as (x & y & ->). apply failb_iff in F. destruct (Hf x k y eq_refl F) as (l' & I2 & S2). apply skipb_iff in S2.
        rewrite C in S2 by (apply in_or_app; now left). discriminate.
  Qed.

  (** ** Objects, delegations and rows of ARIN's list *)
  Lemma apart : forall s p q, starts p s = true -> starts p q = false -> starts q p = false -> starts q s = false.
  Proof.
    intros s p q Hp Npq Nqp. destruct (starts q s) eqn:Hq; [|reflexivity]. exfalso. apply starts_iff in Hp as (x & ->), Hq as (y & E).
    revert q Npq Nqp E. induction p as [|c p IH]; intros q Npq Nqp E.
    - assert (starts [] q = true) by (apply starts_iff; now exists q). congruence.
    - destruct q as [|d q]; [assert (starts [] (c :: p) = true) by (apply starts_iff; now exists (c :: p)); congruence|].
      cbn [app] in E. injection E as <- E. apply (IH q); [| |exact E].
      + apply not_true_is_false. intros H. apply starts_iff in H as (z & ->). assert (starts (c :: p) (c :: p ++ z) = true) by (apply starts_iff; now exists z). congruence.
      + apply not_true_is_false. intros H. apply starts_iff in H as (z & ->). assert (starts (c :: q) (c :: q ++ z) = true) by (apply starts_iff; now exists z). congruence.
  Qed.
  Lemma of_type_iff : forall l r p, of_type (l :: r) p <-> starts p l = true.
  Proof.
    intros l r p. rewrite begins_iff. split; [intros (l' & r' & E & B); congruence|]. intros B. now exists l, r.
  Qed.
  Notation whois_block := (whois_block space digit upper py_addr py_net is_global is_unspecified urlparse countries).
  Notation extended_line := (extended_line decode_strict space py_int py_log2 py_addr is_global is_unspecified countries).
  Notation arin_row := (arin_row py_int).
  Notation org_says := (org_says space upper).
  Notation dummy_says := (dummy_says space digit upper).
  Notation as_says := (as_says space digit upper).
  Notation net_says := (net_says space digit upper py_addr py_net is_global is_unspecified countries).
  Notation link_says := (link_says space digit py_addr py_net is_global is_unspecified urlparse).
  Notation delegated := (delegated decode_strict space py_int py_log2 py_addr is_global is_unspecified countries).
  Notation arin_says := (arin_says py_int).
  Notation readable := (readable decode_strict space digit upper py_int py_log2 py_addr py_net is_global is_unspecified urlparse countries).
  Definition item_stmts (i : item) : option (list stmt) :=
    match i with Block b => whois_block b | Line l => extended_line l | Csv r => arin_row r end.
  Definition item_spec (i : item) (l : list stmt) : Prop :=
    (forall h n, In (PutOrg h n) l <-> org_says i h n) /\ (forall h n, In (DummyOrg h n) l <-> dummy_says i h n) /\
    (forall z h, In (PutAs z h) l <-> as_says i z h) /\ (forall n cc all, In (PutNet n cc all) l <-> net_says i n all /\ cc = hd_error all) /\
    (forall n url, In (PutLink n url) l <-> link_says i n url) /\ (forall n cc, In (PutNetwork n cc) l <-> delegated i n cc) /\
    (forall z name, In (AddAs z name) l <-> arin_says i z name).
  Lemma block_spec : forall line r l, whois_block (line :: r) = Some l -> item_spec (Block (line :: r)) l.
  Proof.
    intros line r l H. cbn [ModelWhois.whois_block] in H. set (b := line :: r) in *.
    assert (Or : forall h n, org_says (Block b) h n <-> starts (txt "organisation:") line = true /\ last_line handle_line b h /\ last_line name_line b n).
    { intros h n. rewrite <- (of_type_iff line r). split; [intros (b' & E & X); injection E as <-; exact X|]. intros X. now exists b. }
    assert (Du : forall h n, dummy_says (Block b) h n <-> starts (txt "aut-num:") line = true /\ dummy_in b h n).
    { intros h n. rewrite <- (of_type_iff line r). split; [intros (b' & d & E & T & X); injection E as <-; split; [exact T|now exists d]|]. intros (T & d & X). exists b, d. auto. }
    assert (As : forall z h, as_says (Block b) z h <-> starts (txt "aut-num:") line = true /\ as_in b z h).
    { intros z h. rewrite <- (of_type_iff line r). split; [intros (b' & d & E & T & X); injection E as <-; split; [exact T|now exists d]|]. intros (T & d & X). exists b, d. auto. }
    assert (Ty : inet_type b <-> starts (txt "inet6num:") line || starts (txt "inetnum:") line = true).
    { rewrite orb_true_iff. unfold inet_type. unfold b. now rewrite !of_type_iff. }
    assert (Ne : forall n all, net_says (Block b) n all <-> net_block b n /\ all_lines cc_line b all).
    { intros n all. split; [intros (b' & E & X); injection E as <-; exact X|]. intros X. now exists b. }
    assert (Li : forall n url, link_says (Block b) n url <-> exists text, net_block b n /\ last_line geofeed_line b text /\ text <> [] /\ https_url text url).
    { intros n url. split; [intros (b' & text & E & X); injection E as <-; now exists text|]. intros (text & X). now exists b, text. }
    assert (De : forall n cc, ~ delegated (Block b) n cc) by (intros n cc (l0 & t & E & _); discriminate).
    assert (Ar : forall z name, ~ arin_says (Block b) z name) by (intros z name (r0 & a0 & b0 & x & y & E & _); discriminate).
    assert (Nt : ~ inet_type b -> forall n, ~ net_block b n) by (intros X n (T & _); contradiction).
    unfold item_spec. destruct (starts (txt "aut-num:") line) eqn:Sa.
    - assert (So : starts (txt "organisation:") line = false) by exact (apart line (txt "aut-num:") (txt "organisation:") Sa eq_refl eq_refl).
      assert (S6 : starts (txt "inet6num:") line = false) by exact (apart line (txt "aut-num:") (txt "inet6num:") Sa eq_refl eq_refl).
      assert (S4 : starts (txt "inetnum:") line = false) by exact (apart line (txt "aut-num:") (txt "inetnum:") Sa eq_refl eq_refl).
      rewrite S6, S4 in Ty. cbn [orb] in Ty. assert (Nb : forall n, ~ net_block b n) by (apply Nt; rewrite Ty; discriminate).
      apply autnum_stmts in H as (H1 & H2 & H3). assert (No : forall q, In q l -> match q with PutAs _ _ | DummyOrg _ _ => True | _ => False end).
      { intros q I1. destruct (H3 q I1) as [(z & h & ->)|(h & n & ->)]; exact Logic.I. }
      split; [intros h n; rewrite Or; split; [intros I1; apply No in I1 as []|intros (X & _); congruence]|].
      split; [intros h n; rewrite Du, H2; split; [auto|intros (_ & X); exact X]|].
      split; [intros z h; rewrite As, H1; split; [auto|intros (_ & X); exact X]|].
      split; [intros n cc all; rewrite Ne; split; [intros I1; apply No in I1 as []|intros ((X & _) & _); now apply Nb in X]|].
      split; [intros n url; rewrite Li; split; [intros I1; apply No in I1 as []|intros (text & X & _); now apply Nb in X]|].
      split; [intros n cc; split; [intros I1; apply No in I1 as []|intros X; now apply De in X]|intros z n; split; [intros I1; apply No in I1 as []|intros X; now apply Ar in X]].
    - destruct (starts (txt "inet6num:") line || starts (txt "inetnum:") line) eqn:Si.
      + assert (T : inet_type b) by now apply Ty. assert (So : starts (txt "organisation:") line = false).
        { apply orb_true_iff in Si as [X|X]; [exact (apart line (txt "inet6num:") (txt "organisation:") X eq_refl eq_refl)|exact (apart line (txt "inetnum:") (txt "organisation:") X eq_refl eq_refl)]. }
        apply inetnum_stmts in H as (H1 & H2 & H3); [|exact T]. assert (No : forall q, In q l -> match q with PutNet _ _ _ | PutLink _ _ => True | _ => False end).
        { intros q I1. destruct (H3 q I1) as [(z & h & x & ->)|(h & n & ->)]; exact Logic.I. }
        split; [intros h n; rewrite Or; split; [intros I1; apply No in I1 as []|intros (X & _); congruence]|].
        split; [intros h n; rewrite Du; split; [intros I1; apply No in I1 as []|intros (X & _); discriminate]|].
        split; [intros z h; rewrite As; split; [intros I1; apply No in I1 as []|intros (X & _); discriminate]|].
        split; [intros n cc all; rewrite Ne, H1; split; [intros (X & Y & Z0); auto|intros ((X & Y) & Z0); auto]|].
        split; [intros n url; rewrite Li, H2; reflexivity|].
        split; [intros n cc; split; [intros I1; apply No in I1 as []|intros X; now apply De in X]|intros z n; split; [intros I1; apply No in I1 as []|intros X; now apply Ar in X]].
      + assert (Nb : forall n, ~ net_block b n) by (apply Nt; rewrite Ty; discriminate).
        destruct (starts (txt "organisation:") line) eqn:So.
        * apply org_stmts in H as (H1 & H3). assert (No : forall q, In q l -> match q with PutOrg _ _ => True | _ => False end).
          { intros q I1. destruct (H3 q I1) as (h & n & ->); exact Logic.I. }
          split; [intros h n; rewrite Or, H1; split; [auto|intros (_ & X); exact X]|].
          split; [intros h n; rewrite Du; split; [intros I1; apply No in I1 as []|intros (X & _); discriminate]|].
          split; [intros z h; rewrite As; split; [intros I1; apply No in I1 as []|intros (X & _); discriminate]|].
          split; [intros n cc all; rewrite Ne; split; [intros I1; apply No in I1 as []|intros ((X & _) & _); now apply Nb in X]|].
          split; [intros n url; rewrite Li; split; [intros I1; apply No in I1 as []|intros (text & X & _); now apply Nb in X]|].
          split; [intros n cc; split; [intros I1; apply No in I1 as []|intros X; now apply De in X]|intros z n; split; [intros I1; apply No in I1 as []|intros X; now apply Ar in X]].
        * injection H as <-.
          split; [intros h n; rewrite Or; split; [intros []|intros (X & _); discriminate]|].
          split; [intros h n; rewrite Du; split; [intros []|intros (X & _); discriminate]|].
          split; [intros z h; rewrite As; split; [intros []|intros (X & _); discriminate]|].
          split; [intros n cc all; rewrite Ne; split; [intros []|intros ((X & _) & _); now apply Nb in X]|].
          split; [intros n url; rewrite Li; split; [intros []|intros (text & X & _); now apply Nb in X]|].
          split; [intros n cc; split; [intros []|intros X; now apply De in X]|intros z n; split; [intros []|intros X; now apply Ar in X]].
  Qed.
  Lemma block_read : forall line r, whois_block (line :: r) <> None <-> readable (Block (line :: r)).
  Proof.
    intros line r. cbn [ModelWhois.whois_block SpecWhois.readable]. set (b := line :: r). unfold block_readable.
    assert (Ty : inet_type b <-> starts (txt "inet6num:") line || starts (txt "inetnum:") line = true).
    { rewrite orb_true_iff. unfold inet_type, b. now rewrite !of_type_iff. }
    assert (Ta : of_type b (txt "aut-num:") <-> starts (txt "aut-num:") line = true) by apply of_type_iff.
    assert (To : of_type b (txt "organisation:") <-> starts (txt "organisation:") line = true) by apply of_type_iff.
    destruct (starts (txt "aut-num:") line) eqn:Sa.
    - assert (So : starts (txt "organisation:") line = false) by exact (apart line (txt "aut-num:") (txt "organisation:") Sa eq_refl eq_refl).
      assert (S6 : starts (txt "inet6num:") line = false) by exact (apart line (txt "aut-num:") (txt "inet6num:") Sa eq_refl eq_refl).
      assert (S4 : starts (txt "inetnum:") line = false) by exact (apart line (txt "aut-num:") (txt "inetnum:") Sa eq_refl eq_refl).
      rewrite S6, S4 in Ty. rewrite So in To. rewrite autnum_readable. split.
      + intros H. split; [intros _; exact H|]. split; [intros X; apply To in X; discriminate|intros X; apply Ty in X; discriminate].
      + intros (H & _). exact (H (proj2 Ta eq_refl)).
    - destruct (starts (txt "inet6num:") line || starts (txt "inetnum:") line) eqn:Si.
      + assert (T : inet_type b) by now apply Ty. assert (So : starts (txt "organisation:") line = false).
        { apply orb_true_iff in Si as [X|X]; [exact (apart line (txt "inet6num:") (txt "organisation:") X eq_refl eq_refl)|exact (apart line (txt "inetnum:") (txt "organisation:") X eq_refl eq_refl)]. }
        rewrite So in To. rewrite inetnum_readable by exact T. split.
        * intros H. split; [intros X; apply Ta in X; discriminate|]. split; [intros X; apply To in X; discriminate|intros _; exact H].
        * intros (_ & _ & H). now apply H.
      + destruct (starts (txt "organisation:") line) eqn:So.
        * assert (Ho : exists h, last_line handle_line b h).
          { apply begins_iff in So. destruct (org_attr line So) as (v & A). apply (last_some handle_of _ handle_iff b line (upper v)); [now left|now exists v]. }
          rewrite (org_readable b Ho). split.
          -- intros H. split; [intros X; apply Ta in X; discriminate|]. split; [intros _; exact H|intros X; apply Ty in X; discriminate].
          -- intros (_ & H & _). apply H. now apply To.
        * split; [|discriminate]. intros _. split; [intros X; apply Ta in X; discriminate|]. split; [intros X; apply To in X; discriminate|intros X; apply Ty in X; discriminate].
  Qed.
  Lemma line_spec : forall t l, extended_line t = Some l -> item_spec (Line t) l.
  Proof.
    intros t l H. assert (D : forall n cc, In (PutNetwork n cc) l <-> delegated (Line t) n cc).
    { intros n cc. unfold SpecWhois.delegated. unfold ModelWhois.extended_line in H. destruct (decode_strict t) as [text|] eqn:E; [|discriminate].
      destruct (parse_line py_int py_log2 py_addr is_global is_unspecified countries (rstrip space text)) as [[n0 cc0]| |] eqn:P; [| |discriminate]; injection H as <-.
      - split.
        + intros [X|[]]. injection X as <- <-. exists t, text. auto.
        + intros (t' & text' & X & E' & P'). injection X as <-. left. congruence.
      - split; [intros []|]. intros (t' & text' & X & E' & P'). congruence. }
    assert (No : forall q, In q l -> match q with PutNetwork _ _ => True | _ => False end).
    { intros q I1. unfold ModelWhois.extended_line in H. destruct (decode_strict t) as [text|]; [|discriminate].
      destruct (parse_line py_int py_log2 py_addr is_global is_unspecified countries (rstrip space text)) as [[n0 cc0]| |]; [| |discriminate]; injection H as <-.
      - destruct I1 as [<-|[]]. exact Logic.I.
      - destruct I1. }
    unfold item_spec. split; [intros h n; split; [intros I1; apply No in I1 as []|intros (b & E & _); discriminate]|].
    split; [intros h n; split; [intros I1; apply No in I1 as []|intros (b & d & E & _); discriminate]|].
    split; [intros z h; split; [intros I1; apply No in I1 as []|intros (b & d & E & _); discriminate]|].
    split; [intros n cc all; split; [intros I1; apply No in I1 as []|intros ((b & E & _) & _); discriminate]|].
    split; [intros n url; split; [intros I1; apply No in I1 as []|intros (b & text & E & _); discriminate]|].
    split; [exact D|]. intros z n; split; [intros I1; apply No in I1 as []|intros (r & a & b & x & y & E & _); discriminate].
  Qed.
  Lemma line_read : forall t, extended_line t <> None <-> readable (Line t).
  Proof.
    intros t. unfold ModelWhois.extended_line, SpecWhois.readable. destruct (decode_strict t) as [text|].
    - destruct (parse_line py_int py_log2 py_addr is_global is_unspecified countries (rstrip space text)) as [[n0 cc0]| |] eqn:P.
      + split; [intros _; exists text; split; [reflexivity|congruence]|discriminate].
      + split; [intros _; exists text; split; [reflexivity|congruence]|discriminate].
      + split; [congruence|]. intros (text' & E & H). congruence.
    - split; [congruence|]. intros (text' & E & H). discriminate.
  Qed.
  Lemma zrange_iff : forall a b z, In z (zrange a b) <-> (a <= z <= b)%Z.
  Proof.
    intros a b z. unfold zrange. rewrite in_map_iff. split.
    - intros (k & <- & I1). apply in_seq in I1. lia.
    - intros H. exists (Z.to_nat (z - a)). split; [lia|]. apply in_seq. lia.
  Qed.
  Lemma public_iff : forall z, check_parsed_asn z = true <-> public_asn z.
  Proof. exact (asn_iff (fun _ => None)). Qed.
  Inductive arin_view (r : arin) : option (list stmt) -> Prop :=
    | arin_other : (forall z name, ~ arin_says (Csv r) z name) -> row_readable py_int r -> arin_view r (Some [])
    | arin_fails : ~ row_readable py_int r -> arin_view r None
    | arin_names : forall name l, row_readable py_int r -> (forall z m, arin_says (Csv r) z m <-> m = name /\ In z l) -> arin_view r (Some (map (fun z => AddAs z name) l)).
  Lemma arin_viewed : forall r, arin_view r (arin_row r).
  Proof.
    intros [status name first last]. unfold ModelWhois.arin_row. cbn [ar_status ar_name ar_first ar_last].
    destruct (match status with Some s => cstr_eqb s (txt "Full Registry Services") | None => false end) eqn:St.
    - assert (status = Some (txt "Full Registry Services")) by (destruct status; [apply key_eq in St; congruence|discriminate]). subst status. clear St.
      destruct first as [a|]; [|apply arin_other; [intros z n (r & a & b & x & y & E & _ & _ & F & _); injection E as <-; discriminate|right; left; reflexivity]].
      destruct (py_int a) as [x|] eqn:Pa.
      + destruct last as [b|].
        * destruct (py_int b) as [y|] eqn:Pb.
          -- assert (Sa : forall z m, arin_says (Csv (mkArin (Some (txt "Full Registry Services")) name (Some a) (Some b))) z m <->
               name = Some m /\ In z (filter check_parsed_asn (zrange x y))).
             { intros z m. rewrite filter_In, zrange_iff, public_iff. split.
               - intros (r & a' & b' & x' & y' & E & _ & Nm & Fa & Ia & Lb & Ib & R & Pu). injection E as <-. cbn [ar_name ar_first ar_last] in *.
                 injection Fa as <-. injection Lb as <-. rewrite Pa in Ia. rewrite Pb in Ib. injection Ia as <-. injection Ib as <-. auto.
               - intros (Nm & R & Pu). exists (mkArin (Some (txt "Full Registry Services")) name (Some a) (Some b)), a, b, x, y. cbn [ar_status ar_name ar_first ar_last]. do 7 (split; [first [reflexivity|assumption]|]). split; assumption. }
             assert (Rr : row_readable py_int (mkArin (Some (txt "Full Registry Services")) name (Some a) (Some b)) <->
               (forall z, In z (filter check_parsed_asn (zrange x y)) -> exists m, name = Some m /\ nul_free m)).
             { unfold row_readable, number_in. cbn [ar_status ar_name ar_first ar_last]. split.
               - intros [H|[H|(x' & (t & E & P) & [H|(y' & (t' & E' & P') & H)])]] z I1; [contradiction|discriminate|discriminate|].
                 apply filter_In in I1 as (I1 & C). apply zrange_iff in I1. apply public_iff in C. injection E as <-. injection E' as <-. rewrite Pa in P. rewrite Pb in P'.
                 injection P as <-. injection P' as <-. now apply (H z).
               - intros H. right. right. exists x. split; [now exists a|]. right. exists y. split; [now exists b|]. intros z R Pu. apply (H z).
                 apply filter_In. split; [now apply zrange_iff|now apply public_iff]. }
             destruct (filter check_parsed_asn (zrange x y)) as [|z0 l] eqn:F.
             ++ apply arin_other; [intros z m X; apply Sa in X as (_ & [])|apply Rr; intros z []].
             ++ destruct name as [m|].
                ** destruct (has_nul m) eqn:Nu.
                   --- apply arin_fails. rewrite Rr. intros H. destruct (H z0 (or_introl eq_refl)) as (m' & E & Nf). apply nul_iff in Nf. congruence.
                   --- apply arin_names; [apply Rr; intros z _; exists m; split; [reflexivity|now apply nul_iff]|].
                       intros z m'. rewrite Sa. split; intros (E & I1); split; congruence || exact I1.
                ** apply arin_fails. rewrite Rr. intros H. destruct (H z0 (or_introl eq_refl)) as (m' & E & _). discriminate.
          -- apply arin_fails. intros [H|[H|(x' & _ & [H|(y' & (t' & E' & P') & H)])]]; [now apply H|discriminate|discriminate|]. cbn [ar_last] in E'. congruence.
        * apply arin_other; [intros z n (r & a' & b & x' & y & E & _ & _ & _ & _ & F & _); injection E as <-; discriminate|].
          right. right. exists x. split; [now exists a|now left].
      + apply arin_fails. intros [H|[H|(x' & (t' & E' & P') & _)]]; [now apply H|discriminate|]. cbn [ar_first] in E'. congruence.
    - assert (Ns : status <> Some (txt "Full Registry Services")).
      { intros ->. change (cstr_eqb (txt "Full Registry Services") (txt "Full Registry Services") = false) in St. rewrite (proj2 (key_eq _ _) eq_refl) in St. discriminate. }
      apply arin_other; [|now left]. intros z n (r & a & b & x & y & E & F & _). injection E as <-. now apply Ns in F.
  Qed.
  Lemma csv_spec : forall r l, arin_row r = Some l -> item_spec (Csv r) l.
  Proof.
    intros r l H. assert (D : forall z n, In (AddAs z n) l <-> arin_says (Csv r) z n).
    { intros z n. destruct (arin_viewed r) as [Na _| |name zs _ Ha]; [|discriminate|]; injection H as <-.
      - split; [intros []|]. intros X. now apply Na in X.
      - rewrite Ha, in_map_iff. split; [intros (z' & E & I1); injection E as <- <-; auto|]. intros (-> & I1). now exists z. }
    assert (No : forall q, In q l -> match q with AddAs _ _ => True | _ => False end).
    { intros q I1. destruct (arin_viewed r) as [_ _| |name zs _ _]; [|discriminate|]; injection H as <-; [destruct I1|].
      apply in_map_iff in I1 as (z & <- & _). exact Logic.I. }
    unfold item_spec. split; [intros h n; split; [intros I1; apply No in I1 as []|intros (b & E & _); discriminate]|].
    split; [intros h n; split; [intros I1; apply No in I1 as []|intros (b & d & E & _); discriminate]|].
    split; [intros z h; split; [intros I1; apply No in I1 as []|intros (b & d & E & _); discriminate]|].
    split; [intros n cc all; split; [intros I1; apply No in I1 as []|intros ((b & E & _) & _); discriminate]|].
    split; [intros n url; split; [intros I1; apply No in I1 as []|intros (b & text & E & _); discriminate]|].
    split; [|exact D]. intros n cc. split; [intros I1; apply No in I1 as []|intros (t & text & E & _); discriminate].
  Qed.
  Lemma csv_read : forall r, arin_row r <> None <-> readable (Csv r).
  Proof.
    intros r. cbn [SpecWhois.readable]. destruct (arin_viewed r) as [_ R|Nr|name l R _]; (split; [|try discriminate]); try (intros _; exact R); congruence.
  Qed.
  Lemma item_specified : forall i l, item_stmts i = Some l -> item_spec i l.
  Proof. intros [[|line r]|t|r] l H; [discriminate|now apply block_spec|now apply line_spec|now apply csv_spec]. Qed.
  Lemma item_read : forall i, i <> Block [] -> (item_stmts i <> None <-> readable i).
  Proof. intros [[|line r]|t|r] H; [contradiction|apply block_read|apply line_read|apply csv_read]. Qed.

  Lemma gather_map : forall {A B} (f : B -> option (list stmt)) (g : A -> B) l, gather f (map g l) = gather (fun x => f (g x)) l.
  Proof. intros A B f g l. induction l as [|x l IH]; [reflexivity|]. cbn [map gather]. now rewrite IH. Qed.
  Lemma gather_app : forall {A} (f : A -> option (list stmt)) l l', gather f (l ++ l') = match gather f l, gather f l' with Some a, Some b => Some (a ++ b) | _, _ => None end.
  Proof.
    intros A f l l'. induction l as [|x l IH]; cbn [app gather]; [now destruct (gather f l')|]. rewrite IH.
    destruct (f x) as [a|]; [|reflexivity]. destruct (gather f l) as [b|]; [|reflexivity]. destruct (gather f l'); [|reflexivity]. now rewrite app_assoc.
  Qed.
  Definition made {A} (f : A -> option (list stmt)) (x : A) : list stmt := match f x with Some l => l | None => [] end.
  Lemma gather_some : forall {A} (f : A -> option (list stmt)) l r, gather f l = Some r <-> (forall x, In x l -> f x <> None) /\ r = concat (map (made f) l).
  Proof.
    intros A f l. induction l as [|x l IH]; intros r; cbn [gather map concat].
    - split; [intros E; injection E as <-; split; [intros ? []|reflexivity]|intros (_ & ->); reflexivity].
    - unfold made at 1. destruct (f x) as [a|] eqn:E.
      + destruct (gather f l) as [b|] eqn:G.
        * destruct (proj1 (IH b) eq_refl) as (H & ->). split.
          -- intros X. injection X as <-. split; [|reflexivity]. intros y [<-|I1]; [congruence|now apply H].
          -- intros (_ & ->). reflexivity.
        * split; [discriminate|]. intros (H & _). assert (X : None = Some (concat (map (made f) l))); [|discriminate].
          apply IH. split; [|reflexivity]. intros y I1. apply H. now right.
      + split; [discriminate|]. intros (H & _). exfalso. exact (H x (or_introl eq_refl) E).
  Qed.
  Notation feed_stmts := (feed_stmts decode decode_strict space digit upper py_int py_log2 py_addr py_net is_global is_unspecified urlparse py_csv countries).
  Notation feed_items := (feed_items decode space py_csv).
  Notation items_are := (items_are decode space py_csv web).
  Definition gathered (feeds : list (format * cstr)) : option (list stmt) :=
    gather (fun feed => match web (snd feed) with Some f => feed_stmts (fst feed) f | None => None end) feeds.
  Lemma feed_gather : forall fmt f l, feed_items fmt f l -> feed_stmts fmt f = gather item_stmts l.
  Proof.
    intros [| |] f l H; cbn [SpecWhois.feed_items ModelWhois.feed_stmts] in *.
    - subst l. now rewrite gather_map.
    - subst l. now rewrite gather_map.
    - destruct H as (rows & -> & ->). now rewrite gather_map.
  Qed.
  Lemma items_gather : forall feeds items, items_are feeds items -> gathered feeds = gather item_stmts items.
  Proof.
    intros feeds items H. induction H as [|fmt url feeds f l items W F H IH]; [reflexivity|]. unfold gathered. cbn [gather fst snd]. rewrite W. fold (gathered feeds).
    rewrite gather_app, (feed_gather fmt f l F), IH. reflexivity.
  Qed.
  Lemma items_one : forall feeds items items', items_are feeds items -> items_are feeds items' -> items = items'.
  Proof.
    intros feeds items items' H. revert items'. induction H as [|fmt url feeds f l items W F H IH]; intros items' H'; inversion H' as [|fmt' url' feeds' f' l' items0 W' F' H0]; subst; [reflexivity|].
    assert (f = f') by congruence. subst f'. rewrite (IH _ H0). f_equal. destruct fmt; cbn [SpecWhois.feed_items] in F, F'; [congruence|congruence|].
    destruct F as (r1 & E1 & ->), F' as (r2 & E2 & ->). congruence.
  Qed.
  Lemma items_exist : forall feeds, gathered feeds <> None -> exists items, items_are feeds items.
  Proof.
    induction feeds as [|[fmt url] feeds IH]; intros H; [exists []; constructor|]. unfold gathered in H. cbn [gather fst snd] in H. fold (gathered feeds) in H.
    destruct (web url) as [f|] eqn:W; [|congruence]. destruct (feed_stmts fmt f) as [a|] eqn:F; [|congruence].
    destruct IH as (items & I1); [intros X; rewrite X in H; congruence|].
    assert (exists l, feed_items fmt f l) as (l & Fl).
    { destruct fmt; cbn [SpecWhois.feed_items ModelWhois.feed_stmts] in *; [eexists; reflexivity|eexists; reflexivity|]. destruct (py_csv f) as [rows|]; [|discriminate]. exists (map Csv rows), rows. auto. }
    exists (l ++ items). now apply (items_cons _ _ _ _ fmt url feeds f).
  Qed.
  Lemma items_full : forall feeds items, items_are feeds items -> forall i, In i items -> i <> Block [].
  Proof.
    intros feeds items H. induction H as [|fmt url feeds f l items W F H IH]; intros i I1; [destruct I1|]. apply in_app_or in I1 as [I1|I1]; [|now apply IH].
    destruct fmt; cbn [SpecWhois.feed_items] in F.
    - subst l. apply in_map_iff in I1 as (b & <- & I1). intros E. injection E as ->. pose proof (loop_nonempty space decode f []) as Fn. rewrite Forall_forall in Fn. now apply (Fn [] I1).
    - subst l. apply in_map_iff in I1 as (b & <- & _). discriminate.
    - destruct F as (rows & _ & ->). apply in_map_iff in I1 as (b & <- & _). discriminate.
  Qed.
  Lemma gathered_some : forall feeds r, gathered feeds = Some r <->
    exists items, items_are feeds items /\ (forall i, In i items -> readable i) /\ r = concat (map (made item_stmts) items).
  Proof.
    intros feeds r. split.
    - intros G. destruct (items_exist feeds) as (items & H); [congruence|]. exists items. split; [exact H|]. rewrite (items_gather _ _ H) in G.
      apply gather_some in G as (R & ->). split; [|reflexivity]. intros i I1. apply item_read; [exact (items_full _ _ H i I1)|now apply R].
    - intros (items & H & R & ->). rewrite (items_gather _ _ H). apply gather_some. split; [|reflexivity]. intros i I1. apply item_read; [exact (items_full _ _ H i I1)|now apply R].
  Qed.
  Lemma made_spec : forall i, item_stmts i <> None -> item_spec i (made item_stmts i).
  Proof. intros i H. apply item_specified. unfold made. now destruct (item_stmts i). Qed.

  (** ** One thing is said about a key *)
  Lemma org_says_one : forall i h n n', org_says i h n -> org_says i h n' -> n = n'.
  Proof.
    intros i h n n' (b & -> & _ & _ & H) (b' & E & _ & _ & H'). injection E as <-. exact (last_one name_of _ name_iff _ _ _ H H').
  Qed.
  Lemma dummy_says_one : forall i h n n', dummy_says i h n -> dummy_says i h n' -> n = n'.
  Proof.
    intros i h n n' (b & d & -> & _ & _ & _ & H & _) (b' & d' & E & _ & _ & _ & H' & _). injection E as <-. exact (descr_one _ _ _ H H').
  Qed.
  Lemma as_says_one : forall i z h h', as_says i z h -> as_says i z h' -> h = h'.
  Proof.
    intros i z h h' (b & d & -> & _ & A & _ & H) (b' & d' & E & _ & A' & _ & H'). injection E as <-. pose proof (asn_one _ _ _ A A'). subst d'.
    destruct H as [H|(N0 & _ & ->)], H' as [H'|(N1 & _ & ->)]; [exact (org_one _ _ _ H H')| | |reflexivity].
    - exfalso. exact (no_last _ _ _ N1 H).
    - exfalso. exact (no_last _ _ _ N0 H').
  Qed.
  Lemma net_says_one : forall i n a a', net_says i n a -> net_says i n a' -> a = a'.
  Proof.
    intros i n a a' (b & -> & _ & H) (b' & E & _ & H'). injection E as <-. exact (all_one _ _ _ H H').
  Qed.
  Lemma delegated_one : forall i n c c', delegated i n c -> delegated i n c' -> c = c'.
  Proof. intros i n c c' (t & text & -> & D & P) (t' & text' & E & D' & P'). injection E as <-. congruence. Qed.
  Lemma arin_says_one : forall i z n n', arin_says i z n -> arin_says i z n' -> n = n'.
  Proof.
    intros i z n n' (r & a & b & x & y & -> & _ & H & _) (r' & a' & b' & x' & y' & E & _ & H' & _). injection E as <-. congruence.
  Qed.
  (** ** Networks are well-formed *)
  Section Wf.
    Hypothesis Wa : forall s bits a, py_addr s = Some (bits, a) -> (bits = 32 \/ bits = 128) /\ a < 2 ^ bits.
    Hypothesis Wn : forall s n, py_net s = Some n -> net_wf n.
    Lemma summarize_wf : forall bits first last l, bits = 32 \/ bits = 128 -> last < 2 ^ bits -> summarize_address_range (bits, first) (bits, last) = Row l -> Forall net_wf l.
    Proof.
      intros bits first last l B L H. destruct (last <? first) eqn:F; [unfold summarize_address_range in H; cbn [fst snd] in H; rewrite N.eqb_refl, F in H; discriminate|].
      destruct (range_exact bits first last B) as (l' & E & T); [lia|exact L|]. assert (l' = l) by congruence. subst l'.
      pose proof (tiles_wf bits last B L first l T) as X. eapply Forall_impl; [|exact X]. intros n (_ & Y). exact Y.
    Qed.
    Lemma of_net_wf : forall n l, net_wf n -> summarize_address_range (p_bits n, p_base n) (p_bits n, p_base n + 2 ^ (p_bits n - p_len n) - 1) = Row l -> Forall net_wf l.
    Proof. intros n l W H. rewrite (range_network n W) in H. injection H as <-. now constructor. Qed.
    Lemma inetnum_wf : forall v l, inetnum v = Row l -> Forall net_wf l.
    Proof.
      assert (R : forall a b l, match py_addr a, py_addr b with Some x, Some y => summarize_address_range x y | _, _ => Skipped end = Row l -> Forall net_wf l).
      { intros a b l H. destruct (py_addr a) as [[bits x]|] eqn:A; [|discriminate]. destruct (py_addr b) as [[bits' y]|] eqn:B; [|discriminate].
        destruct (bits =? bits') eqn:Eb; [|unfold summarize_address_range in H; cbn [fst] in H; rewrite Eb in H; discriminate].
        apply N.eqb_eq in Eb. subst bits'. apply Wa in A as (A1 & _). apply Wa in B as (_ & B1). exact (summarize_wf bits x y l A1 B1 H). }
      intros v l H. unfold ModelImport.inetnum in H. destruct (partition DASH v) as [s e]. destruct (rstrip space s) as [|c r] eqn:Rs; [exact (R _ _ _ H)|].
      destruct e as [e|]; [exact (R _ _ _ H)|]. destruct (py_net (c :: r)) as [n|] eqn:P; [apply (of_net_wf n); [exact (Wn _ _ P)|exact H]|].
      destruct (split 47 (c :: r)) as [|x rest]; [discriminate|]. destruct (negb ((dots x =? 1) || (dots x =? 2))%nat); [discriminate|].
      destruct rest as [|y rest]; [discriminate|]. match type of H with context [py_net ?z] => destruct (py_net z) as [n|] eqn:P2 end; [|discriminate].
      apply (of_net_wf n); [exact (Wn _ _ P2)|exact H].
    Qed.
    Lemma net_says_wf : forall i n a, net_says i n a -> net_wf n.
    Proof.
      intros i n a (b & -> & (_ & _ & (l & [(x & line & y & _ & (v & m & _ & P & ->) & _)|(_ & x & line & y & _ & (v & _ & P) & _)] & I1) & _) & _).
      - destruct I1 as [<-|[]]. exact (Wn _ _ P).
      - apply inetnum_wf in P. rewrite Forall_forall in P. now apply P.
    Qed.
    Lemma delegated_wf : forall i n c, delegated i n c -> net_wf n.
    Proof. intros i n c (t & text & -> & _ & P). now destruct (line_row _ _ _ _ _ _ _ _ _ Wa P). Qed.
  End Wf.
  Notation process_source := (process_source decode decode_strict space digit upper py_int py_log2 py_addr py_net is_global is_unspecified urlparse py_csv web countries).
  Lemma source_items : forall source feeds w w', process_source source feeds w = Some w' <->
    exists items, items_are feeds items /\ (forall i, In i items -> readable i) /\
      w' = finish source (fold_left (exec source) (concat (map (made item_stmts) items)) (mkTemp [] [] [], delete_source source w)).
  Proof.
    intros source feeds w w'. unfold ModelWhois.process_source. fold (gathered feeds). destruct (gathered feeds) as [l|] eqn:G.
    - apply gathered_some in G as (items & H & R & ->). split.
      + intros E. injection E as <-. now exists items.
      + intros (items' & H' & _ & ->). now rewrite (items_one _ _ _ H H').
    - split; [discriminate|]. intros (items & H & R & _). exfalso.
      assert (X : gathered feeds = Some (concat (map (made item_stmts) items))) by (apply gathered_some; now exists items). congruence.
  Qed.
  Lemma items_made : forall feeds items, items_are feeds items -> (forall i, In i items -> readable i) -> forall i, In i items -> item_spec i (made item_stmts i).
  Proof.
    intros feeds items H R i I1. apply made_spec. apply item_read; [exact (items_full _ _ H i I1)|now apply R].
  Qed.
End Whois.
