(** Proofs about the tables after the import of WHOIS data *)
From Coq Require Import String.
From Coq Require Import NArith ZArith List Bool Lia ZifyBool ZifyNat ZifyN.
From Verif Require Import Base ModelCountryCode ModelStringPool SpecText LemmasStringPool ModelImport SpecImport LemmasImport
  LemmasImportTable LemmasImportProps ModelCompile ModelGeofeed SpecGeofeed LemmasGeofeed ModelOverrides SpecOverrides LemmasOverrides
  ModelFeeds SpecFeeds LemmasFeeds ModelWhois SpecWhois LemmasWhoisTable.
Import ListNotations.
Open Scope N_scope.

Lemma fold_view : forall {S V} (f : S -> V) (go : S -> stmt -> S) (step : V -> stmt -> V), (forall s q, f (go s q) = step (f s) q) ->
  forall l s, f (fold_left go l s) = fold_left step l (f s).
Proof. intros S V f go step H l. induction l as [|q l IH]; intros s; [reflexivity|]. cbn [fold_left]. now rewrite IH, H. Qed.
Lemma nodup_filter_fst : forall {K V} (f : K * V -> bool) t, NoDup (map fst t) -> NoDup (map fst (filter f t)).
Proof.
  intros K V f t. induction t as [|r t IH]; intros D; cbn [filter map] in *; [constructor|]. apply NoDup_cons_iff in D as [N0 D].
  destruct (f r); [|now apply IH]. cbn [map]. constructor; [|now apply IH]. intros I1. apply N0. apply in_map_iff in I1 as (q & E & I1).
  apply filter_In in I1 as (I1 & _). rewrite <- E. now apply in_map.
Qed.
Definition text_eq := cstr_eqb_eq.
Definition link_eqb (a b : pnet * cstr) : bool := pnet_eqb (fst a) (fst b) && cstr_eqb (snd a) (snd b).
Lemma link_eq : forall a b, link_eqb a b = true <-> a = b.
Proof.
  intros [n u] [m v]. unfold link_eqb. cbn [fst snd]. rewrite andb_true_iff, pnet_eqb_eq, text_eq. split; [intros (-> & ->); reflexivity|intros E; injection E as -> ->; auto].
Qed.
Lemma none_false : forall {B V} (l : list B), none_of (fun _ (_ : V) => False) l.
Proof. intros B V l b v _ []. Qed.

(** ** Rows are only added *)
Lemma NoDup_app_intro_one : forall {A} (l : list A) x, NoDup l -> ~ In x l -> NoDup (l ++ [x]).
Proof.
  intros A l x D N0. induction D as [|y l Ny D IH]; cbn [app]; [repeat constructor; intros []|]. constructor; [|apply IH; intros H; apply N0; now right].
  intros H. apply in_app_or in H as [H|[<-|[]]]; [now apply Ny|apply N0; now left].
Qed.
Lemma NoDup_app_disjoint : forall {A} (l l' : list A), NoDup (l ++ l') -> forall x, In x l -> ~ In x l'.
Proof.
  intros A l l'. induction l as [|y l IH]; intros D x I1; [destruct I1|]. cbn [app] in D. apply NoDup_cons_iff in D as [N0 D].
  destruct I1 as [<-|I1]; [intros H; apply N0; apply in_or_app; now right|now apply IH].
Qed.
Definition nets (t : list row) : list pnet := map r_net t.
Lemma insert_app : forall rows t, exists l, insert t rows = t ++ l /\ (NoDup (nets t) -> NoDup (nets (t ++ l))).
Proof.
  unfold insert. induction rows as [|r rows IH]; intros t; cbn [fold_left]; [exists []; rewrite app_nil_r; auto|].
  destruct (existsb (fun q => pnet_eqb (r_net q) (r_net r)) t) eqn:E; [apply IH|]. destruct (IH (t ++ [r])) as (l & -> & H). exists (r :: l). rewrite <- app_assoc. split; [reflexivity|].
  intros D. rewrite <- app_assoc in H. apply H. clear H. unfold nets. rewrite map_app. cbn [map]. apply NoDup_app_intro_one; [exact D|]. intros I1. apply in_map_iff in I1 as (q & Eq & I1).
  apply not_true_iff_false in E. apply E. apply existsb_exists. exists q. split; [exact I1|]. now apply pnet_eqb_eq.
Qed.
Lemma inserts_app : forall (f : list row -> N -> list row) ps t, exists l,
  fold_left (fun t p => insert t (f t p)) ps t = t ++ l /\ (NoDup (nets t) -> NoDup (nets (t ++ l))).
Proof.
  intros f ps. induction ps as [|p ps IH]; intros t; cbn [fold_left]; [exists []; rewrite app_nil_r; auto|].
  destruct (insert_app (f t p) t) as (l & -> & H). destruct (IH (t ++ l)) as (l' & -> & H'). exists (l ++ l'). rewrite app_assoc. auto.
Qed.
Lemma family_app : forall rir t bits, exists l, copy_family rir t bits = t ++ l /\ (NoDup (nets t) -> NoDup (nets (t ++ l))).
Proof.
  intros rir t bits. unfold copy_family. destruct (prefixes rir bits) as [|p ps]; [exists []; rewrite app_nil_r; auto|].
  destruct (insert_app (of_prefix rir bits p) t) as (l & -> & H).
  destruct (inserts_app (fun t p => filter (provides t) (of_prefix rir bits p)) ps (t ++ l)) as (l' & -> & H'). exists (l ++ l'). rewrite app_assoc. auto.
Qed.
Lemma copy_app : forall rir t, exists l, copy_networks rir t = t ++ l /\ (NoDup (nets t) -> NoDup (nets (t ++ l))).
Proof.
  intros rir t. unfold copy_networks. destruct (family_app rir t 32) as (l & -> & H). destruct (family_app rir (t ++ l) 128) as (l' & -> & H').
  exists (l ++ l'). rewrite app_assoc. auto.
Qed.
Lemma nets_keyed : forall t, NoDup (nets t) -> keyed t.
Proof.
  intros t D r q Ir Iq E. induction t as [|x t IH]; [destruct Ir|]. cbn [nets map] in D. apply NoDup_cons_iff in D as [N0 D].
  destruct Ir as [->|Ir], Iq as [->|Iq]; [reflexivity| | |now apply IH].
  - exfalso. apply N0. rewrite E. now apply in_map.
  - exfalso. apply N0. rewrite <- E. now apply in_map.
Qed.
Lemma located_iff : forall (T T' : row -> Prop) bits v c, (forall r, T r <-> T' r) -> (located T bits v c <-> located T' bits v c).
Proof.
  assert (X : forall (T T' : row -> Prop) bits v c, (forall r, T r <-> T' r) -> located T bits v c -> located T' bits v c).
  { intros T T' bits v c H (r & (R1 & R2 & R3 & R4) & E). exists r. split; [|exact E]. split; [now apply H|]. split; [exact R2|]. split; [exact R3|]. intros q Q. apply R4. now apply H. }
  intros T T' bits v c H. split; apply X; [exact H|intros; symmetry; apply H].
Qed.
Lemma around_iff : forall (T T' : row -> Prop) n p, (forall r, T r <-> T' r) -> (around T n p <-> around T' n p).
Proof.
  assert (X : forall (T T' : row -> Prop) n p, (forall r, T r <-> T' r) -> around T n p -> around T' n p).
  { intros T T' n p H (R1 & R2 & R3). split; [now apply H|]. split; [exact R2|]. intros q Q. apply R3. now apply H. }
  intros T T' n p H. split; apply X; [exact H|intros; symmetry; apply H].
Qed.

Section Source.
  Variable source : cstr.
  Variable w : whois.
  Hypothesis keys_as : NoDup (map fst (w_autnums w)).
  Hypothesis keys_net : NoDup (map fst (w_networks w)).
  Hypothesis keys_link : NoDup (map fst (w_links w)).
  Variables org_says dummy_says : item -> cstr -> cstr -> Prop.
  Variables as_says arin_says : item -> Z -> cstr -> Prop.
  Variable net_says : item -> pnet -> list cstr -> Prop.
  Variables link_says delegated : item -> pnet -> cstr -> Prop.
  Variable items : list item.
  Variable g : item -> list stmt.
  Hypothesis org_in : forall i h n, In i items -> (In (PutOrg h n) (g i) <-> org_says i h n).
  Hypothesis dummy_in : forall i h n, In i items -> (In (DummyOrg h n) (g i) <-> dummy_says i h n).
  Hypothesis as_in : forall i z h, In i items -> (In (PutAs z h) (g i) <-> as_says i z h).
  Hypothesis net_in : forall i n cc all, In i items -> (In (PutNet n cc all) (g i) <-> net_says i n all /\ cc = hd_error all).
  Hypothesis link_in : forall i n url, In i items -> (In (PutLink n url) (g i) <-> link_says i n url).
  Hypothesis del_in : forall i n cc, In i items -> (In (PutNetwork n cc) (g i) <-> delegated i n cc).
  Hypothesis arin_in : forall i z name, In i items -> (In (AddAs z name) (g i) <-> arin_says i z name).
  Hypothesis org_one : forall i h n n', org_says i h n -> org_says i h n' -> n = n'.
  Hypothesis dummy_one : forall i h n n', dummy_says i h n -> dummy_says i h n' -> n = n'.
  Hypothesis as_one : forall i z h h', as_says i z h -> as_says i z h' -> h = h'.
  Hypothesis net_one : forall i n a a', net_says i n a -> net_says i n a' -> a = a'.
  Hypothesis del_one : forall i n c c', delegated i n c -> delegated i n c' -> c = c'.
  Hypothesis arin_one : forall i z n n', arin_says i z n -> arin_says i z n' -> n = n'.

  Definition stmts := concat (map g items).
  Definition begin := (mkTemp [] [] [], delete_source source w).
  Definition state := fold_left (exec source) stmts begin.

  (** *** Keys occur once *)
  Definition keyed_state (s : temp * whois) : Prop :=
    NoDup (map fst (t_autnums (fst s))) /\ NoDup (map fst (t_orgs (fst s))) /\ NoDup (map fst (t_rir (fst s))) /\
    NoDup (map fst (w_autnums (snd s))) /\ NoDup (map fst (w_networks (snd s))) /\ NoDup (map fst (w_links (snd s))).
  Lemma exec_keyed : forall s q, keyed_state s -> keyed_state (exec source s q).
  Proof.
    intros [[a o r] [x n l]] q (H1 & H2 & H3 & H4 & H5 & H6). destruct q; unfold keyed_state; cbn [exec fst snd t_autnums t_orgs t_rir w_autnums w_networks w_links] in *;
      repeat (split; [first [assumption|apply upsert_nodup; [first [exact text_eq|exact Z.eqb_eq|exact pnet_eqb_eq]|assumption]]|]);
      first [assumption|apply upsert_nodup; [exact link_eq|assumption]].
  Qed.
  Lemma state_keyed : keyed_state state.
  Proof.
    unfold state. assert (B : keyed_state begin).
    { unfold keyed_state, begin, delete_source. cbn [fst snd t_autnums t_orgs t_rir w_autnums w_networks w_links map].
      repeat split; try constructor; now apply nodup_filter_fst. }
    revert B. generalize begin. induction stmts as [|q l IH]; intros s B; [exact B|]. cbn [fold_left]. apply IH. now apply exec_keyed.
  Qed.

  (** *** Organisations *)
  Definition org_step (h : cstr) (o : option cstr) (q : stmt) : option cstr :=
    match q with
    | PutOrg h' n => if cstr_eqb h' h then Some n else o
    | DummyOrg h' n => if cstr_eqb h' h then Some (match o with Some v => v | None => n end) else o
    | _ => o
    end.
  Lemma org_view : forall h s q, find_key cstr_eqb h (t_orgs (fst (exec source s q))) = org_step h (find_key cstr_eqb h (t_orgs (fst s))) q.
  Proof.
    intros h [[a o r] [x n l]] q. destruct q; cbn [exec fst snd t_orgs org_step]; try reflexivity;
      rewrite (find_upsert cstr_eqb text_eq); destruct (find_key cstr_eqb h o); reflexivity.
  Qed.
  Definition is_org (h : cstr) (q : stmt) (v : cstr) : Prop := q = PutOrg h v.
  Definition is_dummy (h : cstr) (q : stmt) (v : cstr) : Prop := q = DummyOrg h v.
  Lemma text_refl : forall h, cstr_eqb h h = true.
  Proof. intros h. now apply text_eq. Qed.
  Lemma org_steps : forall h q, steps (is_org h) (is_dummy h) (org_step h) q.
  Proof.
    intros h q o. unfold is_org, is_dummy. split; [intros v ->; cbn [org_step]; now rewrite text_refl|]. intros Np.
    split; [intros v ->; cbn [org_step]; now rewrite text_refl|]. intros Nq. destruct q as [h' n'|h' n'| | | | |]; cbn [org_step]; try reflexivity;
      destruct (cstr_eqb h' h) eqn:E; try reflexivity; apply text_eq in E; subst h'; exfalso; [exact (Np _ eq_refl)|exact (Nq _ eq_refl)].
  Qed.
  Lemma org_decided : forall h q, decided (is_org h) q.
  Proof.
    intros h q. unfold is_org. destruct q as [h' n'|h' n'| | | | |]; try (right; intros v E; discriminate). destruct (cstr_eqb h' h) eqn:E.
    - apply text_eq in E. subst h'. left. now exists n'.
    - right. intros v E'. injection E' as -> ->. rewrite text_refl in E. discriminate.
  Qed.
  Lemma dummy_decided : forall h q, decided (is_dummy h) q.
  Proof.
    intros h q. unfold is_dummy. destruct q as [h' n'|h' n'| | | | |]; try (right; intros v E; discriminate). destruct (cstr_eqb h' h) eqn:E.
    - apply text_eq in E. subst h'. left. now exists n'.
    - right. intros v E'. injection E' as -> ->. rewrite text_refl in E. discriminate.
  Qed.
  Lemma is_org_in : forall h i v, In i items -> (in_item g (is_org h) i v <-> org_says i h v).
  Proof. intros h i v I1. rewrite <- (org_in i h v I1). split; [intros (q & I2 & ->); exact I2|]. intros I2. now exists (PutOrg h v). Qed.
  Lemma is_dummy_in : forall h i v, In i items -> (in_item g (is_dummy h) i v <-> dummy_says i h v).
  Proof. intros h i v I1. rewrite <- (dummy_in i h v I1). split; [intros (q & I2 & ->); exact I2|]. intros I2. now exists (DummyOrg h v). Qed.
  Definition orgs_say (h name : cstr) : Prop := last_says org_says items h name \/ (nobody org_says items h /\ first_says dummy_says items h name).
  Lemma orgs_are : forall h name, In (h, name) (t_orgs (fst state)) <-> orgs_say h name.
  Proof.
    intros h name. destruct state_keyed as (_ & K & _). rewrite <- (find_in cstr_eqb text_eq _ _ _ K). unfold state.
    rewrite (fold_view (fun s => find_key cstr_eqb h (t_orgs (fst s))) (exec source) (org_step h) (org_view h)). unfold stmts.
    rewrite (lifted g (is_org h) (is_dummy h)); [|intros; apply org_steps|intros; apply org_decided|intros; apply dummy_decided| |].
    - cbn [begin fst t_orgs find_key]. unfold orgs_say, last_says, nobody, first_says.
      rewrite (last_of_iff _ (fun i v => org_says i h v)) by (intros; now apply is_org_in). rewrite (none_of_iff _ (fun i v => org_says i h v)) by (intros; now apply is_org_in).
      rewrite (first_of_iff _ (fun i v => dummy_says i h v)) by (intros; now apply is_dummy_in). unfold last_of, none_of, first_of. split.
      + intros [H|(H & [E|(_ & H')])]; [now left|discriminate|right; auto].
      + intros [H|(H & H')]; [now left|right; auto].
    - intros i I1 v v' H H'. apply is_org_in in H, H'; try exact I1. exact (org_one _ _ _ _ H H').
    - intros i I1 v v' H H'. apply is_dummy_in in H, H'; try exact I1. exact (dummy_one _ _ _ _ H H').
  Qed.
  Lemma never_decided : forall {V} (q : stmt), decided (fun _ (_ : V) => False) q.
  Proof. intros V q. right. intros v []. Qed.
  Lemma never_single : forall {V} i, single g (fun _ (_ : V) => False) i.
  Proof. intros V i v v' (q & _ & []). Qed.

  (** *** ASes of the objects *)
  Definition as_step (z : Z) (o : option cstr) (q : stmt) : option cstr := match q with PutAs z' h => if Z.eqb z' z then Some h else o | _ => o end.
  Lemma as_view : forall z s q, find_key Z.eqb z (t_autnums (fst (exec source s q))) = as_step z (find_key Z.eqb z (t_autnums (fst s))) q.
  Proof.
    intros z [[a o r] [x n l]] q. destruct q; cbn [exec fst snd t_autnums as_step]; try reflexivity.
    rewrite (find_upsert Z.eqb Z.eqb_eq); destruct (find_key Z.eqb z a); reflexivity.
  Qed.
  Definition is_as (z : Z) (q : stmt) (v : cstr) : Prop := q = PutAs z v.
  Lemma as_steps : forall z q, steps (is_as z) (fun _ _ => False) (as_step z) q.
  Proof.
    intros z q o. unfold is_as. split; [intros v ->; cbn [as_step]; now rewrite Z.eqb_refl|]. intros Np. split; [intros v []|]. intros _.
    destruct q as [| |z' h'| | | |]; cbn [as_step]; try reflexivity. destruct (Z.eqb z' z) eqn:E; [|reflexivity]. apply Z.eqb_eq in E. subst z'. now destruct (Np h').
  Qed.
  Lemma as_decided : forall z q, decided (is_as z) q.
  Proof.
    intros z q. unfold is_as. destruct q as [| |z' h'| | | |]; try (right; intros v E; discriminate). destruct (Z.eqb z' z) eqn:E.
    - apply Z.eqb_eq in E. subst z'. left. now exists h'.
    - right. intros v E'. injection E' as -> ->. rewrite Z.eqb_refl in E. discriminate.
  Qed.
  Lemma is_as_in : forall z i v, In i items -> (in_item g (is_as z) i v <-> as_says i z v).
  Proof. intros z i v I1. rewrite <- (as_in i z v I1). split; [intros (q & I2 & ->); exact I2|]. intros I2. now exists (PutAs z v). Qed.
  Lemma ases_are : forall z h, In (z, h) (t_autnums (fst state)) <-> last_says as_says items z h.
  Proof.
    intros z h. destruct state_keyed as (K & _). rewrite <- (find_in Z.eqb Z.eqb_eq _ _ _ K). unfold state.
    rewrite (fold_view (fun s => find_key Z.eqb z (t_autnums (fst s))) (exec source) (as_step z) (as_view z)). unfold stmts.
    rewrite (lifted g (is_as z) (fun _ _ => False)); [|intros; apply as_steps|intros; apply as_decided|intros; apply never_decided| |intros; apply never_single].
    - cbn [begin fst t_autnums find_key]. rewrite (last_of_iff _ (fun i v => as_says i z v)) by (intros; now apply is_as_in). split; [|now left].
      intros [H|(_ & [E|(_ & x & b & y & _ & (q & _ & []) & _)])]; [exact H|discriminate].
    - intros i I1 v v' H H'. apply is_as_in in H, H'; try exact I1. exact (as_one _ _ _ _ H H').
  Qed.

  (** *** ASes of ARIN's list *)
  Definition arin_step (z : Z) (o : option (cstr * cstr)) (q : stmt) : option (cstr * cstr) :=
    match q with AddAs z' name => if Z.eqb z' z then Some (match o with Some v => v | None => (name, txt "ARIN") end) else o | _ => o end.
  Lemma arin_seen : forall z s q, find_key Z.eqb z (w_autnums (snd (exec source s q))) = arin_step z (find_key Z.eqb z (w_autnums (snd s))) q.
  Proof.
    intros z [[a o r] [x n l]] q. destruct q; cbn [exec fst snd w_autnums arin_step]; try reflexivity. now rewrite (find_upsert Z.eqb Z.eqb_eq).
  Qed.
  Definition is_arin (z : Z) (q : stmt) (v : cstr * cstr) : Prop := q = AddAs z (fst v) /\ snd v = txt "ARIN".
  Lemma arin_steps : forall z q, steps (fun _ _ => False) (is_arin z) (arin_step z) q.
  Proof.
    intros z q o. unfold is_arin. split; [intros v []|]. intros _. split.
    - intros [n s] (-> & E). cbn [fst snd] in *. cbn [arin_step]. rewrite Z.eqb_refl. now rewrite E.
    - intros Nq. destruct q as [| | | | | |z' n']; cbn [arin_step]; try reflexivity. destruct (Z.eqb z' z) eqn:E; [|reflexivity]. apply Z.eqb_eq in E. subst z'. now destruct (Nq (n', txt "ARIN")).
  Qed.
  Lemma arin_decided : forall z q, decided (is_arin z) q.
  Proof.
    intros z q. unfold is_arin. destruct q as [| | | | | |z' n']; try (right; intros v (E & _); discriminate). destruct (Z.eqb z' z) eqn:E.
    - apply Z.eqb_eq in E. subst z'. left. now exists (n', txt "ARIN").
    - right. intros v (E' & _). injection E' as -> _. rewrite Z.eqb_refl in E. discriminate.
  Qed.
  Lemma is_arin_in : forall z i v, In i items -> (in_item g (is_arin z) i v <-> arin_says i z (fst v) /\ snd v = txt "ARIN").
  Proof. intros z i v I1. rewrite <- (arin_in i z (fst v) I1). split; [intros (q & I2 & -> & E); auto|]. intros (I2 & E). now exists (AddAs z (fst v)). Qed.
  Definition other_as (z : Z) (name src : cstr) : Prop := In (z, (name, src)) (w_autnums w) /\ src <> source.
  Definition before_as (z : Z) (name src : cstr) : Prop :=
    other_as z name src \/ ((forall name src, ~ other_as z name src) /\ first_says arin_says items z name /\ src = txt "ARIN").
  Lemma other_as_is : forall z name src, In (z, (name, src)) (w_autnums (delete_source source w)) <-> other_as z name src.
  Proof.
    intros z name src. unfold delete_source, other_as. cbn [w_autnums]. rewrite filter_In. cbn [snd]. rewrite negb_true_iff, <- not_true_iff_false, text_eq. reflexivity.
  Qed.
  Lemma first_pair : forall {K} (P : item -> K -> cstr -> Prop) k l v s, first_of (fun i (v : cstr * cstr) => P i k (fst v) /\ snd v = s) l v <-> first_says P l k (fst v) /\ snd v = s.
  Proof.
    intros K P k l [n s'] s. cbn [fst snd]. split.
    - intros (x & b & y & E & (H & Hs) & N0). split; [|exact Hs]. exists x, b, y. split; [exact E|]. split; [exact H|]. intros b' a' I1 H'. apply (N0 b' (a', s) I1). auto.
    - intros ((x & b & y & E & H & N0) & ->). exists x, b, y. split; [exact E|]. split; [auto|]. intros b' [a' s2] I1 (H' & _). exact (N0 b' a' I1 H').
  Qed.
  Lemma before_are : forall z name src, In (z, (name, src)) (w_autnums (snd state)) <-> before_as z name src.
  Proof.
    intros z name src. destruct state_keyed as (_ & _ & _ & K & _). rewrite <- (find_in Z.eqb Z.eqb_eq _ _ _ K). unfold state.
    rewrite (fold_view (fun s => find_key Z.eqb z (w_autnums (snd s))) (exec source) (arin_step z) (arin_seen z)). unfold stmts.
    rewrite (lifted g (fun _ _ => False) (is_arin z)); [|intros; apply arin_steps|intros; apply never_decided|intros; apply arin_decided|intros; apply never_single|].
    - cbn [begin snd]. rewrite (first_of_iff _ (fun i v => arin_says i z (fst v) /\ snd v = txt "ARIN")) by (intros; now apply is_arin_in).
      rewrite first_pair. cbn [fst snd]. rewrite (find_none Z.eqb Z.eqb_eq). rewrite (find_in Z.eqb Z.eqb_eq) by (now apply nodup_filter_fst).
      rewrite other_as_is. assert (Nx : (forall v, ~ In (z, v) (w_autnums (delete_source source w))) <-> forall name src, ~ other_as z name src).
      { split; [intros H n s O; apply (H (n, s)); now apply other_as_is|]. intros H [n s] O. apply other_as_is in O. exact (H n s O). }
      rewrite Nx. unfold before_as. split.
      + intros [(x & b & y & _ & (q & _ & []) & _)|(_ & H)]. exact H.
      + intros H. right. split; [intros b v _ (q & _ & [])|exact H].
    - intros i I1 [v s] [v' s'] H H'. apply is_arin_in in H as (H & Hs), H' as (H' & Hs'); try exact I1. cbn [fst snd] in *. f_equal; [exact (arin_one _ _ _ _ H H')|congruence].
  Qed.

  (** *** Names of ASes *)
  Definition named (z : Z) (name : cstr) : Prop := exists h, last_says as_says items z h /\ orgs_say h name.
  Definition after_as (z : Z) (name src : cstr) : Prop :=
    (named z name /\ ((exists old, before_as z old src) \/ ((forall old src, ~ before_as z old src) /\ src = source))) \/
    ((forall name, ~ named z name) /\ before_as z name src).
  Definition join_step (orgs : list (cstr * cstr)) (z : Z) (o : option (cstr * cstr)) (r : Z * cstr) : option (cstr * cstr) :=
    match find_key cstr_eqb (snd r) orgs with
    | Some name => if Z.eqb (fst r) z then Some (match o with Some v => (name, snd v) | None => (name, source) end) else o
    | None => o
    end.
  Lemma join_find : forall t l z, NoDup (map fst (t_autnums t)) -> find_key Z.eqb z (join_names source t l) =
    match match find_key Z.eqb z (t_autnums t) with Some h => find_key cstr_eqb h (t_orgs t) | None => None end with
    | Some name => Some (match find_key Z.eqb z l with Some v => (name, snd v) | None => (name, source) end)
    | None => find_key Z.eqb z l
    end.
  Proof.
    intros [au orgs rir] l z. cbn [t_autnums]. unfold join_names. cbn [t_autnums t_orgs]. revert l. induction au as [|[z0 h] au IH]; intros l D; [reflexivity|].
    cbn [map fst] in D. apply NoDup_cons_iff in D as [N0 D]. cbn [fold_left find_key fst snd]. rewrite IH by exact D. destruct (Z.eqb z0 z) eqn:E.
    - apply Z.eqb_eq in E. subst z0. replace (find_key Z.eqb z au) with (@None cstr).
      + destruct (find_key cstr_eqb h orgs) as [name|]; [|reflexivity]. rewrite (find_upsert Z.eqb Z.eqb_eq), Z.eqb_refl. reflexivity.
      + symmetry. apply (find_none Z.eqb Z.eqb_eq). intros v I1. apply N0. apply (in_map fst) in I1. exact I1.
    - destruct (find_key cstr_eqb h orgs) as [name|]; [|reflexivity]. rewrite (find_upsert Z.eqb Z.eqb_eq), E. reflexivity.
  Qed.
  Lemma join_nodup : forall t l, NoDup (map fst l) -> NoDup (map fst (join_names source t l)).
  Proof.
    intros [au orgs rir] l. unfold join_names. cbn [t_autnums t_orgs]. revert l. induction au as [|[z0 h] au IH]; intros l D; [exact D|]. cbn [fold_left fst snd].
    apply IH. destruct (find_key cstr_eqb h orgs); [apply upsert_nodup; [exact Z.eqb_eq|exact D]|exact D].
  Qed.
  Lemma names_are : forall z name src, In (z, (name, src)) (w_autnums (finish source state)) <-> after_as z name src.
  Proof.
    intros z name src. destruct state_keyed as (Ka & Ko & _ & Kw & _). pose proof orgs_are as Ho. pose proof ases_are as Ha. pose proof before_are as Hb.
    destruct state as [t x] eqn:St. cbn [fst snd] in *. unfold finish. cbn [w_autnums].
    rewrite <- (find_in Z.eqb Z.eqb_eq) by (now apply join_nodup). rewrite (join_find t _ z Ka).
    assert (Fb : forall v, find_key Z.eqb z (w_autnums x) = Some v <-> before_as z (fst v) (snd v)) by (intros [n s]; now rewrite (find_in Z.eqb Z.eqb_eq _ _ _ Kw), Hb).
    assert (Fn : find_key Z.eqb z (w_autnums x) = None <-> forall n s, ~ before_as z n s).
    { rewrite (find_none Z.eqb Z.eqb_eq). split; [intros H n s X; apply (H (n, s)); now apply Hb|]. intros H [n s] X. apply (H n s). now apply Hb. }
    assert (Nm : forall n, match find_key Z.eqb z (t_autnums t) with Some h => find_key cstr_eqb h (t_orgs t) | None => None end = Some n <-> named z n).
    { intros n. unfold named. split.
      - destruct (find_key Z.eqb z (t_autnums t)) as [h|] eqn:F; [|discriminate]. intros Fo. exists h. split; [apply Ha; now apply (find_in Z.eqb Z.eqb_eq _ _ _ Ka)|].
        apply Ho. now apply (find_in cstr_eqb text_eq _ _ _ Ko).
      - intros (h & L & O). apply Ha in L. apply (find_in Z.eqb Z.eqb_eq _ _ _ Ka) in L. rewrite L. apply Ho in O. now apply (find_in cstr_eqb text_eq _ _ _ Ko). }
    unfold after_as. destruct (match find_key Z.eqb z (t_autnums t) with Some h => find_key cstr_eqb h (t_orgs t) | None => None end) as [n|] eqn:F.
    - assert (Hn : named z n) by now apply Nm. destruct (find_key Z.eqb z (w_autnums x)) as [[on os]|] eqn:Fx.
      + assert (B : before_as z on os) by now apply (Fb (on, os)). cbn [snd]. split.
        * intros E. injection E as <- <-. left. split; [exact Hn|]. left. now exists on.
        * intros [(H & [(old & Bo)|(H0 & _)])|(H0 & _)]; [|now apply H0 in B|now apply H0 in Hn]. apply Nm in H. injection H as ->. apply (Fb (old, src)) in Bo. congruence.
      + pose proof (proj1 Fn eq_refl) as Nb. split.
        * intros E. injection E as <- <-. left. split; [exact Hn|]. right. auto.
        * intros [(H & [(old & Bo)|(_ & ->)])|(H0 & _)]; [now apply Nb in Bo| |now apply H0 in Hn]. apply Nm in H. congruence.
    - assert (Nn : forall n, ~ named z n) by (intros n H; apply Nm in H; discriminate). rewrite (Fb (name, src)). cbn [fst snd]. split; [intros H; right; auto|].
      intros [(H & _)|(_ & H)]; [now apply Nn in H|exact H].
  Qed.

  (** *** Links to geofeeds *)
  Definition link_step (k : pnet * cstr) (o : option cstr) (q : stmt) : option cstr := match q with PutLink n url => if link_eqb (n, url) k then Some source else o | _ => o end.
  Lemma link_view : forall k s q, find_key link_eqb k (w_links (snd (exec source s q))) = link_step k (find_key link_eqb k (w_links (snd s))) q.
  Proof.
    intros k [[a o r] [x n l]] q. destruct q as [| | | |m url| |]; cbn [exec fst snd w_links link_step]; try reflexivity.
    change (fun a0 b : pnet * cstr => pnet_eqb (fst a0) (fst b) && cstr_eqb (snd a0) (snd b)) with link_eqb.
    rewrite (find_upsert link_eqb link_eq). destruct (find_key link_eqb k l); reflexivity.
  Qed.
  Definition is_link (k : pnet * cstr) (q : stmt) (v : cstr) : Prop := q = PutLink (fst k) (snd k) /\ v = source.
  Lemma link_steps : forall k q, steps (is_link k) (fun _ _ => False) (link_step k) q.
  Proof.
    intros [n url] q o. unfold is_link. cbn [fst snd]. split; [intros v (-> & ->); cbn [link_step]; now rewrite (proj2 (link_eq _ _) eq_refl)|]. intros Np. split; [intros v []|]. intros _.
    destruct q as [| | | |m u| |]; cbn [link_step]; try reflexivity. destruct (link_eqb (m, u) (n, url)) eqn:E; [|reflexivity]. apply link_eq in E. injection E as -> ->. now destruct (Np source).
  Qed.
  Lemma link_decided : forall k q, decided (is_link k) q.
  Proof.
    intros [n url] q. unfold is_link. cbn [fst snd]. destruct q as [| | | |m u| |]; try (right; intros v (E & _); discriminate). destruct (link_eqb (m, u) (n, url)) eqn:E.
    - apply link_eq in E. injection E as -> ->. left. now exists source.
    - right. intros v (E' & _). injection E' as -> ->. rewrite (proj2 (link_eq _ _) eq_refl) in E. discriminate.
  Qed.
  Lemma is_link_in : forall k i v, In i items -> (in_item g (is_link k) i v <-> link_says i (fst k) (snd k) /\ v = source).
  Proof. intros k i v I1. rewrite <- (link_in i _ _ I1). split; [intros (q & I2 & -> & E); auto|]. intros (I2 & E). now exists (PutLink (fst k) (snd k)). Qed.
  Definition after_link (n : pnet) (url src : cstr) : Prop :=
    ((exists i, In i items /\ link_says i n url) /\ src = source) \/
    ((forall i, In i items -> ~ link_says i n url) /\ In (n, url, src) (w_links w) /\ src <> source).
  Lemma other_link_is : forall n url src, In (n, url, src) (w_links (delete_source source w)) <-> In (n, url, src) (w_links w) /\ src <> source.
  Proof.
    intros n url src. unfold delete_source. cbn [w_links]. rewrite filter_In. cbn [snd]. rewrite negb_true_iff, <- not_true_iff_false, text_eq. reflexivity.
  Qed.
  Lemma links_are : forall n url src, In (n, url, src) (w_links (finish source state)) <-> after_link n url src.
  Proof.
    intros n url src. replace (w_links (finish source state)) with (w_links (snd state)) by now destruct state.
    destruct state_keyed as (_ & _ & _ & _ & _ & K). rewrite <- (find_in link_eqb link_eq _ _ _ K). unfold state.
    rewrite (fold_view (fun s => find_key link_eqb (n, url) (w_links (snd s))) (exec source) (link_step (n, url)) (link_view (n, url))). unfold stmts.
    rewrite (lifted g (is_link (n, url)) (fun _ _ => False)); [|intros; apply link_steps|intros; apply link_decided|intros; apply never_decided| |intros; apply never_single].
    - cbn [begin snd]. rewrite (find_in link_eqb link_eq) by (now apply nodup_filter_fst). rewrite other_link_is.
      rewrite (last_of_iff _ (fun i v => link_says i n url /\ v = source)) by (intros; now apply is_link_in).
      rewrite (none_of_iff _ (fun i v => link_says i n url /\ v = source)) by (intros; now apply is_link_in). unfold after_link. split.
      + intros [(x & b & y & E & (H & ->) & _)|(H & [X|(_ & x & b & y & _ & (q & _ & []) & _)])].
        * left. split; [|reflexivity]. exists b. split; [rewrite E; apply in_or_app; right; now left|exact H].
        * right. split; [|exact X]. intros i I1 L. exact (H i source I1 (conj L eq_refl)).
      + intros [((i & I1 & L) & ->)|(H & X)]; [left|right; split; [intros i v I1 (L & _); exact (H i I1 L)|now left]].
        destruct (last_or_none (fun i v => link_says i n url /\ v = source) items) as [(v & L2)|N0].
        * intros j J. destruct (in_item_decided g (is_link (n, url)) j) as [(v & Hv)|Nv]; [intros; apply link_decided|left; exists v; now apply (is_link_in (n, url))|].
          right. intros v Hv. apply (Nv v). now apply is_link_in.
        * assert (v = source) by (destruct L2 as (x & b & y & _ & (_ & E) & _); exact E). subst v. exact L2.
        * exfalso. exact (N0 i source I1 (conj L eq_refl)).
    - intros i I1 v v' H H'. apply is_link_in in H as (_ & ->), H' as (_ & ->); try exact I1. reflexivity.
  Qed.

  (** *** Networks of the objects *)
  Lemma net_refl : forall n, pnet_eqb n n = true.
  Proof. intros n. now apply pnet_eqb_eq. Qed.
  Definition rir_cc_step (n : pnet) (o : option (option cstr)) (q : stmt) : option (option cstr) := match q with PutNet m cc _ => if pnet_eqb m n then Some cc else o | _ => o end.
  Definition rir_all_step (n : pnet) (o : option (list cstr)) (q : stmt) : option (list cstr) :=
    match q with PutNet m _ all => if pnet_eqb m n then Some (match o with Some x => x | None => all end) else o | _ => o end.
  Lemma rir_cc_view : forall n s q, option_map fst (find_key pnet_eqb n (t_rir (fst (exec source s q)))) = rir_cc_step n (option_map fst (find_key pnet_eqb n (t_rir (fst s)))) q.
  Proof.
    intros n [[a o r] [x ns l]] q. destruct q as [| | |m cc all| | |]; cbn [exec fst snd t_rir rir_cc_step]; try reflexivity.
    rewrite (find_upsert pnet_eqb pnet_eqb_eq). destruct (pnet_eqb m n); [|reflexivity]. destruct (find_key pnet_eqb n r); reflexivity.
  Qed.
  Lemma rir_all_view : forall n s q, option_map snd (find_key pnet_eqb n (t_rir (fst (exec source s q)))) = rir_all_step n (option_map snd (find_key pnet_eqb n (t_rir (fst s)))) q.
  Proof.
    intros n [[a o r] [x ns l]] q. destruct q as [| | |m cc all| | |]; cbn [exec fst snd t_rir rir_all_step]; try reflexivity.
    rewrite (find_upsert pnet_eqb pnet_eqb_eq). destruct (pnet_eqb m n); [|reflexivity]. destruct (find_key pnet_eqb n r); reflexivity.
  Qed.
  Definition is_cc (n : pnet) (q : stmt) (v : option cstr) : Prop := exists all, q = PutNet n v all.
  Definition is_all (n : pnet) (q : stmt) (v : list cstr) : Prop := exists cc, q = PutNet n cc v.
  Lemma rir_cc_steps : forall n q, steps (is_cc n) (fun _ _ => False) (rir_cc_step n) q.
  Proof.
    intros n q o. unfold is_cc. split; [intros v (all & ->); cbn [rir_cc_step]; now rewrite net_refl|]. intros Np. split; [intros v []|]. intros _.
    destruct q as [| | |m cc all| | |]; cbn [rir_cc_step]; try reflexivity. destruct (pnet_eqb m n) eqn:E; [|reflexivity]. apply pnet_eqb_eq in E. subst m. destruct (Np cc). now exists all.
  Qed.
  Lemma rir_all_steps : forall n q, steps (fun _ _ => False) (is_all n) (rir_all_step n) q.
  Proof.
    intros n q o. unfold is_all. split; [intros v []|]. intros _. split; [intros v (cc & ->); cbn [rir_all_step]; now rewrite net_refl|]. intros Nq.
    destruct q as [| | |m cc all| | |]; cbn [rir_all_step]; try reflexivity. destruct (pnet_eqb m n) eqn:E; [|reflexivity]. apply pnet_eqb_eq in E. subst m. destruct (Nq all). now exists cc.
  Qed.
  Lemma cc_decided : forall n q, decided (is_cc n) q.
  Proof.
    intros n q. unfold is_cc. destruct q as [| | |m cc all| | |]; try (right; intros v (x & E); discriminate). destruct (pnet_eqb m n) eqn:E.
    - apply pnet_eqb_eq in E. subst m. left. now exists cc, all.
    - right. intros v (x & E'). injection E' as -> _ _. rewrite net_refl in E. discriminate.
  Qed.
  Lemma all_decided : forall n q, decided (is_all n) q.
  Proof.
    intros n q. unfold is_all. destruct q as [| | |m cc all| | |]; try (right; intros v (x & E); discriminate). destruct (pnet_eqb m n) eqn:E.
    - apply pnet_eqb_eq in E. subst m. left. now exists all, cc.
    - right. intros v (x & E'). injection E' as -> _ _. rewrite net_refl in E. discriminate.
  Qed.
  Lemma is_cc_in : forall n i v, In i items -> (in_item g (is_cc n) i v <-> exists all, net_says i n all /\ v = hd_error all).
  Proof.
    intros n i v I1. split.
    - intros (q & I2 & all & ->). apply (net_in i n v all I1) in I2. now exists all.
    - intros (all & H). exists (PutNet n v all). split; [now apply (net_in i n v all I1)|now exists all].
  Qed.
  Lemma is_all_in : forall n i v, In i items -> (in_item g (is_all n) i v <-> net_says i n v).
  Proof.
    intros n i v I1. split.
    - intros (q & I2 & cc & ->). now apply (net_in i n cc v I1) in I2.
    - intros H. exists (PutNet n (hd_error v) v). split; [now apply (net_in i n (hd_error v) v I1)|now exists (hd_error v)].
  Qed.
  Definition rir_net (n : pnet) (cc : option cstr) (all : list cstr) : Prop :=
    exists last, last_says net_says items n last /\ cc = hd_error last /\ first_says net_says items n all.
  Lemma both_parts : forall {A B} (o : option (A * B)) a b, o = Some (a, b) <-> option_map fst o = Some a /\ option_map snd o = Some b.
  Proof.
    intros A B [[x y]|] a b; cbn [option_map fst snd]; [|split; [discriminate|intros (E & _); discriminate]].
    split; [intros E; injection E as -> ->; auto|intros (E1 & E2); congruence].
  Qed.
  Lemma rirs_are : forall n cc all, In (n, (cc, all)) (t_rir (fst state)) <-> rir_net n cc all.
  Proof.
    intros n cc all. destruct state_keyed as (_ & _ & K & _). rewrite <- (find_in pnet_eqb pnet_eqb_eq _ _ _ K), both_parts. unfold state.
    rewrite (fold_view (fun s => option_map fst (find_key pnet_eqb n (t_rir (fst s)))) (exec source) (rir_cc_step n) (rir_cc_view n)).
    rewrite (fold_view (fun s => option_map snd (find_key pnet_eqb n (t_rir (fst s)))) (exec source) (rir_all_step n) (rir_all_view n)). unfold stmts.
    rewrite (lifted g (is_cc n) (fun _ _ => False)); [|intros; apply rir_cc_steps|intros; apply cc_decided|intros; apply never_decided| |intros; apply never_single].
    rewrite (lifted g (fun _ _ => False) (is_all n)); [|intros; apply rir_all_steps|intros; apply never_decided|intros; apply all_decided|intros; apply never_single|].
    - cbn [begin fst t_rir find_key option_map]. rewrite (first_of_iff _ (fun i v => net_says i n v)) by (intros; now apply is_all_in).
      rewrite (last_of_iff _ (fun i v => exists all, net_says i n all /\ v = hd_error all)) by (intros; now apply is_cc_in). unfold rir_net. split.
      + intros ([(x & b & y & E & (a & H & ->) & N0)|(_ & [X|(_ & x & b & y & _ & (q & _ & []) & _)])] & F); [|discriminate].
        exists a. split; [exists x, b, y; split; [exact E|]; split; [exact H|]; intros b' a' I1 H'; apply (N0 b' (hd_error a') I1); now exists a'|]. split; [reflexivity|].
        destruct F as [(x' & b' & y' & _ & (q & _ & []) & _)|(_ & [X|(_ & F)])]; [discriminate|exact F].
      + intros (a & (x & b & y & E & H & N0) & -> & F). split.
        * left. exists x, b, y. split; [exact E|]. split; [now exists a|]. intros b' v' I1 (a' & H' & _). exact (N0 b' a' I1 H').
        * right. split; [intros b' v' _ (q & _ & [])|]. right. auto.
    - intros i I1 v v' H H'. apply is_all_in in H, H'; try exact I1. exact (net_one _ _ _ _ H H').
    - intros i I1 v v' H H'. apply is_cc_in in H as (a & H & ->), H' as (a' & H' & ->); try exact I1. now rewrite (net_one _ _ _ _ H H').
  Qed.

  (** *** Networks of other sources and delegations *)
  Definition cc_part (v : option cstr * list cstr * cstr) := fst (fst v).
  Definition rest_part (v : option cstr * list cstr * cstr) := (snd (fst v), snd v).
  Definition del_cc_step (n : pnet) (o : option (option cstr)) (q : stmt) : option (option cstr) := match q with PutNetwork m cc => if pnet_eqb m n then Some (Some cc) else o | _ => o end.
  Definition del_rest_step (n : pnet) (o : option (list cstr * cstr)) (q : stmt) : option (list cstr * cstr) :=
    match q with PutNetwork m cc => if pnet_eqb m n then Some (match o with Some x => x | None => ([cc], source) end) else o | _ => o end.
  Lemma del_cc_view : forall n s q, option_map cc_part (find_key pnet_eqb n (w_networks (snd (exec source s q)))) = del_cc_step n (option_map cc_part (find_key pnet_eqb n (w_networks (snd s)))) q.
  Proof.
    intros n [[a o r] [x ns l]] q. destruct q as [| | | | |m cc|]; cbn [exec fst snd w_networks del_cc_step]; try reflexivity.
    rewrite (find_upsert pnet_eqb pnet_eqb_eq). destruct (pnet_eqb m n); [|reflexivity]. destruct (find_key pnet_eqb n ns); reflexivity.
  Qed.
  Lemma del_rest_view : forall n s q, option_map rest_part (find_key pnet_eqb n (w_networks (snd (exec source s q)))) = del_rest_step n (option_map rest_part (find_key pnet_eqb n (w_networks (snd s)))) q.
  Proof.
    intros n [[a o r] [x ns l]] q. destruct q as [| | | | |m cc|]; cbn [exec fst snd w_networks del_rest_step]; try reflexivity.
    rewrite (find_upsert pnet_eqb pnet_eqb_eq). destruct (pnet_eqb m n); [|reflexivity]. destruct (find_key pnet_eqb n ns); reflexivity.
  Qed.
  Definition is_del_cc (n : pnet) (q : stmt) (v : option cstr) : Prop := exists cc, q = PutNetwork n cc /\ v = Some cc.
  Definition is_del_rest (n : pnet) (q : stmt) (v : list cstr * cstr) : Prop := exists cc, q = PutNetwork n cc /\ v = ([cc], source).
  Lemma del_cc_steps : forall n q, steps (is_del_cc n) (fun _ _ => False) (del_cc_step n) q.
  Proof.
    intros n q o. unfold is_del_cc. split; [intros v (cc & -> & ->); cbn [del_cc_step]; now rewrite net_refl|]. intros Np. split; [intros v []|]. intros _.
    destruct q as [| | | | |m cc|]; cbn [del_cc_step]; try reflexivity. destruct (pnet_eqb m n) eqn:E; [|reflexivity]. apply pnet_eqb_eq in E. subst m. destruct (Np (Some cc)). now exists cc.
  Qed.
  Lemma del_rest_steps : forall n q, steps (fun _ _ => False) (is_del_rest n) (del_rest_step n) q.
  Proof.
    intros n q o. unfold is_del_rest. split; [intros v []|]. intros _. split; [intros v (cc & -> & ->); cbn [del_rest_step]; now rewrite net_refl|]. intros Nq.
    destruct q as [| | | | |m cc|]; cbn [del_rest_step]; try reflexivity. destruct (pnet_eqb m n) eqn:E; [|reflexivity]. apply pnet_eqb_eq in E. subst m. destruct (Nq ([cc], source)). now exists cc.
  Qed.
  Lemma del_cc_decided : forall n q, decided (is_del_cc n) q.
  Proof.
    intros n q. unfold is_del_cc. destruct q as [| | | | |m cc|]; try (right; intros v (x & E & _); discriminate). destruct (pnet_eqb m n) eqn:E.
    - apply pnet_eqb_eq in E. subst m. left. now exists (Some cc), cc.
    - right. intros v (x & E' & _). injection E' as -> _. rewrite net_refl in E. discriminate.
  Qed.
  Lemma del_rest_decided : forall n q, decided (is_del_rest n) q.
  Proof.
    intros n q. unfold is_del_rest. destruct q as [| | | | |m cc|]; try (right; intros v (x & E & _); discriminate). destruct (pnet_eqb m n) eqn:E.
    - apply pnet_eqb_eq in E. subst m. left. now exists ([cc], source), cc.
    - right. intros v (x & E' & _). injection E' as -> _. rewrite net_refl in E. discriminate.
  Qed.
  Lemma is_del_cc_in : forall n i v, In i items -> (in_item g (is_del_cc n) i v <-> exists cc, delegated i n cc /\ v = Some cc).
  Proof.
    intros n i v I1. split.
    - intros (q & I2 & cc & -> & ->). apply (del_in i n cc I1) in I2. now exists cc.
    - intros (cc & H & ->). exists (PutNetwork n cc). split; [now apply (del_in i n cc I1)|now exists cc].
  Qed.
  Lemma is_del_rest_in : forall n i v, In i items -> (in_item g (is_del_rest n) i v <-> exists cc, delegated i n cc /\ v = ([cc], source)).
  Proof.
    intros n i v I1. split.
    - intros (q & I2 & cc & -> & ->). apply (del_in i n cc I1) in I2. now exists cc.
    - intros (cc & H & ->). exists (PutNetwork n cc). split; [now apply (del_in i n cc I1)|now exists cc].
  Qed.
  Definition other_net (n : pnet) (cc : option cstr) (all : list cstr) (src : cstr) : Prop := In (n, (cc, all, src)) (w_networks w) /\ src <> source.
  Definition given_net (n : pnet) (cc : option cstr) (all : list cstr) (src : cstr) : Prop :=
    (nobody delegated items n /\ other_net n cc all src) \/
    (exists c, last_says delegated items n c /\ cc = Some c /\
      ((exists cc', other_net n cc' all src) \/ ((forall cc' all' src', ~ other_net n cc' all' src') /\ (exists c', first_says delegated items n c' /\ all = [c']) /\ src = source))).
  Lemma other_net_is : forall n cc all src, In (n, (cc, all, src)) (w_networks (delete_source source w)) <-> other_net n cc all src.
  Proof.
    intros n cc all src. unfold delete_source, other_net. cbn [w_networks]. rewrite filter_In. cbn [snd]. rewrite negb_true_iff, <- not_true_iff_false, text_eq. reflexivity.
  Qed.
  Lemma three_parts : forall (o : option (option cstr * list cstr * cstr)) a b c, o = Some (a, b, c) <-> option_map cc_part o = Some a /\ option_map rest_part o = Some (b, c).
  Proof.
    intros [[[x y] z]|] a b c; cbn [option_map]; unfold cc_part, rest_part; cbn [fst snd]; [|split; [discriminate|intros (E & _); discriminate]].
    split; [intros E; injection E as -> -> ->; auto|intros (E1 & E2); congruence].
  Qed.
  Lemma last_map : forall {V} (f : cstr -> V) n v, (forall a b, f a = f b -> a = b) ->
    (last_of (fun i v => exists cc, delegated i n cc /\ v = f cc) items v <-> exists c, last_says delegated items n c /\ v = f c).
  Proof.
    intros V f n v Hf. split.
    - intros (x & b & y & E & (c & H & ->) & N0). exists c. split; [|reflexivity]. exists x, b, y. split; [exact E|]. split; [exact H|]. intros b' a' I1 H'. apply (N0 b' (f a') I1). now exists a'.
    - intros (c & (x & b & y & E & H & N0) & ->). exists x, b, y. split; [exact E|]. split; [now exists c|]. intros b' v' I1 (a' & H' & _). exact (N0 b' a' I1 H').
  Qed.
  Lemma first_map : forall {V} (f : cstr -> V) n v,
    first_of (fun i v => exists cc, delegated i n cc /\ v = f cc) items v <-> exists c, first_says delegated items n c /\ v = f c.
  Proof.
    intros V f n v. split.
    - intros (x & b & y & E & (c & H & ->) & N0). exists c. split; [|reflexivity]. exists x, b, y. split; [exact E|]. split; [exact H|]. intros b' a' I1 H'. apply (N0 b' (f a') I1). now exists a'.
    - intros (c & (x & b & y & E & H & N0) & ->). exists x, b, y. split; [exact E|]. split; [now exists c|]. intros b' v' I1 (a' & H' & _). exact (N0 b' a' I1 H').
  Qed.
  Lemma none_map : forall {V} (f : cstr -> V) n, none_of (fun i v => exists cc, delegated i n cc /\ v = f cc) items <-> nobody delegated items n.
  Proof.
    intros V f n. split; [intros H b a I1 X; apply (H b (f a) I1); now exists a|]. intros H b v I1 (a & X & _). exact (H b a I1 X).
  Qed.
  Lemma givens_are : forall n cc all src, In (n, (cc, all, src)) (w_networks (snd state)) <-> given_net n cc all src.
  Proof.
    intros n cc all src. destruct state_keyed as (_ & _ & _ & _ & K & _). rewrite <- (find_in pnet_eqb pnet_eqb_eq _ _ _ K), three_parts. unfold state.
    rewrite (fold_view (fun s => option_map cc_part (find_key pnet_eqb n (w_networks (snd s)))) (exec source) (del_cc_step n) (del_cc_view n)).
    rewrite (fold_view (fun s => option_map rest_part (find_key pnet_eqb n (w_networks (snd s)))) (exec source) (del_rest_step n) (del_rest_view n)). unfold stmts.
    rewrite (lifted g (is_del_cc n) (fun _ _ => False)); [|intros; apply del_cc_steps|intros; apply del_cc_decided|intros; apply never_decided| |intros; apply never_single].
    rewrite (lifted g (fun _ _ => False) (is_del_rest n)); [|intros; apply del_rest_steps|intros; apply never_decided|intros; apply del_rest_decided|intros; apply never_single|].
    - cbn [begin snd]. rewrite (first_of_iff _ (fun i v => exists c, delegated i n c /\ v = ([c], source))) by (intros; now apply is_del_rest_in).
      rewrite (last_of_iff _ (fun i v => exists c, delegated i n c /\ v = Some c)) by (intros; now apply is_del_cc_in).
      rewrite (none_of_iff _ (fun i v => exists c, delegated i n c /\ v = Some c)) by (intros; now apply is_del_cc_in).
      rewrite (last_map (@Some cstr)) by congruence. rewrite (first_map (fun c => ([c], source))), (none_map (@Some cstr)).
      assert (D : NoDup (map fst (w_networks (delete_source source w)))) by now apply nodup_filter_fst.
      assert (Fo : forall a b c, find_key pnet_eqb n (w_networks (delete_source source w)) = Some (a, b, c) <-> other_net n a b c) by (intros; now rewrite (find_in pnet_eqb pnet_eqb_eq _ _ _ D), other_net_is).
      assert (Fn : find_key pnet_eqb n (w_networks (delete_source source w)) = None <-> forall a b c, ~ other_net n a b c).
      { rewrite (find_none pnet_eqb pnet_eqb_eq). split; [intros H a b c X; apply (H (a, b, c)); now apply other_net_is|]. intros H [[a b] c] X. apply (H a b c). now apply other_net_is. }
      destruct (find_key pnet_eqb n (w_networks (delete_source source w))) as [[[a0 b0] c0]|]; cbn [option_map]; unfold cc_part, rest_part; cbn [fst snd].
      + assert (O : other_net n a0 b0 c0) by now apply Fo. unfold given_net. split.
        * intros ([(c & L & ->)|(N0 & [X|(X & _)])] & [(x & b & y & _ & (q & _ & []) & _)|(_ & [Y|(Y & _)])]); try discriminate; injection Y as -> ->.
          -- right. exists c. split; [exact L|]. split; [reflexivity|]. left. now exists a0.
          -- left. split; [exact N0|]. injection X as ->. exact O.
        * intros [(N0 & X)|(c & L & -> & [(cc' & X)|(X & _)])]; [| |now apply X in O].
          -- apply Fo in X. injection X as -> -> ->. split; [right; split; [exact N0|now left]|right; split; [intros b v _ (q & _ & [])|now left]].
          -- apply Fo in X. injection X as -> -> ->. split; [left; now exists c|right; split; [intros b v _ (q & _ & [])|now left]].
      + pose proof (proj1 Fn eq_refl) as No. unfold given_net. split.
        * intros ([(c & L & ->)|(N0 & [X|(_ & x & b & y & _ & (q & _ & []) & _)])] & [(x1 & b1 & y1 & _ & (q1 & _ & []) & _)|(_ & [Y|(_ & c' & F & Y)])]); try discriminate.
          injection Y as -> ->. right. exists c. split; [exact L|]. split; [reflexivity|]. right. split; [exact No|]. split; [now exists c'|reflexivity].
        * intros [(_ & X)|(c & L & -> & [(cc' & X)|(_ & (c' & F & ->) & ->)])]; [now apply No in X|now apply No in X|].
          split; [left; now exists c|]. right. split; [intros b v _ (q & _ & [])|]. right. split; [reflexivity|]. now exists c'.
    - intros i I1 v v' H H'. apply is_del_rest_in in H as (c & H & ->), H' as (c' & H' & ->); try exact I1. now rewrite (del_one _ _ _ _ H H').
    - intros i I1 v v' H H'. apply is_del_cc_in in H as (c & H & ->), H' as (c' & H' & ->); try exact I1. now rewrite (del_one _ _ _ _ H H').
  Qed.

  (** *** Networks after copying *)
  Definition given_row (r : row) : Prop := exists all src, given_net (r_net r) (r_country r) all src.
  Definition rir_row (r : row) : Prop := exists all, rir_net (r_net r) (r_country r) all.
  Definition known_row (r : row) : Prop := given_row r \/ (rir_row r /\ forall q, given_row q -> r_net q <> r_net r).
  Definition row_in (x : whois) (r : row) : Prop := exists all src, In (r_net r, (r_country r, all, src)) (w_networks x).
  Hypothesis wf_table : forall n v, In (n, v) (w_networks w) -> net_wf n.
  Hypothesis wf_net : forall i n a, In i items -> net_says i n a -> net_wf n.
  Hypothesis wf_del : forall i n c, In i items -> delegated i n c -> net_wf n.
  Definition have := map (fun r : pnet * (option cstr * list cstr * cstr) => mkRow (fst r) (fst (fst (snd r)))) (w_networks (snd state)).
  Definition rirs := map (fun r : pnet * (option cstr * list cstr) => mkRow (fst r) (fst (snd r))) (t_rir (fst state)).
  Lemma have_in : forall r, In r have <-> given_row r.
  Proof.
    intros [n cc]. unfold have, given_row. rewrite in_map_iff. cbn [r_net r_country]. split.
    - intros ([m [[c a] s]] & E & I1). cbn [fst snd] in E. injection E as -> ->. exists a, s. now apply givens_are.
    - intros (a & s & G). exists (n, (cc, a, s)). split; [reflexivity|now apply givens_are].
  Qed.
  Lemma rirs_in : forall r, In r rirs <-> rir_row r.
  Proof.
    intros [n cc]. unfold rirs, rir_row. rewrite in_map_iff. cbn [r_net r_country]. split.
    - intros ([m [c a]] & E & I1). cbn [fst snd] in E. injection E as -> ->. exists a. now apply rirs_are.
    - intros (a & G). exists (n, (cc, a)). split; [reflexivity|now apply rirs_are].
  Qed.
  Lemma have_nets : nets have = map fst (w_networks (snd state)).
  Proof. unfold nets, have. now rewrite map_map. Qed.
  Lemma rirs_nets : nets rirs = map fst (t_rir (fst state)).
  Proof. unfold nets, rirs. now rewrite map_map. Qed.
  Lemma have_keyed : keyed have.
  Proof. apply nets_keyed. rewrite have_nets. now destruct state_keyed as (_ & _ & _ & _ & K & _). Qed.
  Lemma rirs_keyed : keyed rirs /\ NoDup rirs.
  Proof.
    destruct state_keyed as (_ & _ & K & _). rewrite <- rirs_nets in K. split; [now apply nets_keyed|]. unfold nets in K. now apply NoDup_map_inv in K.
  Qed.
  Lemma either_known : forall r, either have rirs r <-> known_row r.
  Proof.
    intros r. unfold either, known_row. rewrite have_in, rirs_in. split; (intros [H|(H & F)]; [now left|right; split; [exact H|]]); intros q Q; apply F; now apply have_in.
  Qed.
  Lemma all_wf : forall r, In r have \/ In r rirs -> net_wf (r_net r).
  Proof.
    intros r [H|H].
    - apply have_in in H as (a & s & [(_ & O & _)|(c & (x & i & y & E & D & _) & _)]); [exact (wf_table _ _ O)|]. apply (wf_del i _ c); [rewrite E; apply in_or_app; right; now left|exact D].
    - apply rirs_in in H as (a & l & (x & i & y & E & D & _) & _). apply (wf_net i _ l); [rewrite E; apply in_or_app; right; now left|exact D].
  Qed.
  Lemma final_nets : exists l, copy_networks rirs have = have ++ l /\ NoDup (nets (have ++ l)) /\
    w_networks (finish source state) = w_networks (snd state) ++
      map (fun r => (r_net r, (r_country r, match find_key pnet_eqb (r_net r) (t_rir (fst state)) with Some v => snd v | None => [] end, source))) l.
  Proof.
    destruct (copy_app rirs have) as (l & E & D). exists l. split; [exact E|]. split; [apply D; rewrite have_nets; now destruct state_keyed as (_ & _ & _ & _ & K & _)|].
    unfold finish. unfold have, rirs in *. destruct state as [t x]. cbn [fst snd w_networks] in *. unfold copy_rir. rewrite E. rewrite skipn_app, Nat.sub_diag, skipn_all. reflexivity.
  Qed.
  Lemma final_row : forall r, row_in (finish source state) r <-> In r (copy_networks rirs have).
  Proof.
    destruct final_nets as (l & E & _ & F). intros [n cc]. unfold row_in. rewrite F, E, in_app_iff. cbn [r_net r_country]. split.
    - intros (a & s & I1). apply in_app_or in I1 as [I1|I1].
      + left. apply have_in. exists a, s. now apply givens_are.
      + right. apply in_map_iff in I1 as (r & X & I1). injection X as <- <- _ _. now destruct r.
    - intros [H|H].
      + apply have_in in H as (a & s & H). exists a, s. apply in_or_app. left. now apply givens_are.
      + do 2 eexists. apply in_or_app. right. apply in_map_iff. exists (mkRow n cc). split; [reflexivity|exact H].
  Qed.
  Lemma nets_after : 
    (forall n cc all src, given_net n cc all src -> In (n, (cc, all, src)) (w_networks (finish source state))) /\
    (forall n cc all src, In (n, (cc, all, src)) (w_networks (finish source state)) ->
      given_net n cc all src \/ (rir_net n cc all /\ src = source /\ forall cc' all' src', ~ given_net n cc' all' src')).
  Proof.
    destruct final_nets as (l & E & D & F). rewrite F. split.
    - intros n cc all src G. apply in_or_app. left. now apply givens_are.
    - intros n cc all src I1. apply in_app_or in I1 as [I1|I1]; [left; now apply givens_are|]. right. apply in_map_iff in I1 as (r & X & I1). injection X as <- <- <- <-.
      assert (Nh : forall q, In q have -> r_net q <> r_net r).
      { intros q Q Eq. unfold nets in D. rewrite map_app in D. apply (NoDup_app_disjoint _ _ D (r_net r)); [rewrite <- Eq; now apply in_map|now apply in_map]. }
      destruct rirs_keyed as (Kr & Nr).
      assert (R : In r rirs).
      { destruct (proj2 (networks_rows have rirs have_keyed Kr Nr all_wf) r) as [H|(H & _)]; [rewrite E; apply in_or_app; now right| |exact H]. exfalso. exact (Nh r H eq_refl). }
      apply rirs_in in R as (a & R). pose proof R as R'. apply rirs_are in R. destruct state_keyed as (_ & _ & K & _). apply (find_in pnet_eqb pnet_eqb_eq _ _ _ K) in R. rewrite R.
      split; [exact R'|]. split; [reflexivity|]. intros cc' all' src' G. apply (Nh (mkRow (r_net r) cc')); [apply have_in; now exists all', src'|reflexivity].
  Qed.
  Lemma nets_located : (forall n cc all, rir_net n cc all -> cc <> None) ->
    forall bits v c, located (row_in (finish source state)) bits v c <-> located known_row bits v c.
  Proof.
    intros Nn bits v c. destruct rirs_keyed as (Kr & Nr). rewrite (located_iff _ _ bits v c final_row), <- (located_iff _ _ bits v c either_known).
    apply (networks_located have rirs have_keyed Kr Nr all_wf). intros r R. apply rirs_in in R as (a & R). exact (Nn _ _ _ R).
  Qed.
  Lemma nets_more : forall r p, row_in (finish source state) r -> ~ given_row r ->
    (exists q, rir_row q /\ p_bits (r_net q) = p_bits (r_net r) /\ p_len (r_net q) < p_len (r_net r)) ->
    around (row_in (finish source state)) (r_net r) p -> r_country p = None \/ r_country p <> r_country r.
  Proof.
    intros r p R G (q & Q & L) A. destruct rirs_keyed as (Kr & Nr). apply (networks_more have rirs have_keyed Kr Nr all_wf r p).
    - now apply final_row.
    - intros H. apply G. now apply have_in.
    - exists q. split; [now apply rirs_in|exact L].
    - now apply (around_iff _ _ (r_net r) p final_row).
  Qed.
  Lemma finish_keyed : NoDup (map fst (w_autnums (finish source state))) /\ NoDup (map fst (w_networks (finish source state))) /\ NoDup (map fst (w_links (finish source state))) /\
    forall n v, In (n, v) (w_networks (finish source state)) -> net_wf n.
  Proof.
    destruct final_nets as (l & E & D & F). destruct state_keyed as (_ & _ & _ & K1 & _ & K3). split; [|split; [|split]].
    - destruct state as [t x]. cbn [snd finish w_autnums] in *. now apply join_nodup.
    - rewrite F, map_app, map_map. cbn [fst]. rewrite <- have_nets. unfold nets in *. now rewrite <- map_app.
    - now destruct state.
    - intros n [[cc all] src] I1. apply nets_after in I1 as [G|(R & _)].
      + apply (all_wf (mkRow n cc)). left. apply have_in. now exists all, src.
      + apply (all_wf (mkRow n cc)). right. apply rirs_in. now exists all.
  Qed.

  (** *** Rows of other sources stay *)
  Lemma other_as_kept : forall z name src, other_as z name src -> exists name', In (z, (name', src)) (w_autnums (finish source state)).
  Proof.
    intros z name src O. assert (B : In (z, (name, src)) (w_autnums (snd state))) by (apply before_are; now left).
    destruct state_keyed as (Ka & _ & _ & Kw & _). apply (find_in Z.eqb Z.eqb_eq _ _ _ Kw) in B. destruct state as [t x]. cbn [fst snd] in *. unfold finish. cbn [w_autnums].
    pose proof (join_find t (w_autnums x) z Ka) as J. rewrite B in J. cbn [snd] in J.
    destruct (match find_key Z.eqb z (t_autnums t) with Some h => find_key cstr_eqb h (t_orgs t) | None => None end) as [n|]; [exists n|exists name];
      apply (find_in Z.eqb Z.eqb_eq _ _ _ (join_nodup t _ Kw)); exact J.
  Qed.
  Lemma exec_net_kept : forall q s n cc all src, find_key pnet_eqb n (w_networks (snd s)) = Some (cc, all, src) ->
    exists cc', find_key pnet_eqb n (w_networks (snd (exec source s q))) = Some (cc', all, src).
  Proof.
    intros q [[a o r] [x ns l]] n cc all src H. cbn [snd w_networks] in H. destruct q as [| | | | |m c|]; cbn [exec snd w_networks]; try (now exists cc).
    rewrite (find_upsert pnet_eqb pnet_eqb_eq), H. cbn [fst snd]. destruct (pnet_eqb m n); [now exists (Some c)|now exists cc].
  Qed.
  Lemma other_net_kept : forall n cc all src, other_net n cc all src -> exists cc', In (n, (cc', all, src)) (w_networks (finish source state)).
  Proof.
    intros n cc all src O. apply other_net_is in O.
    assert (X : exists cc', find_key pnet_eqb n (w_networks (snd state)) = Some (cc', all, src)).
    { apply (find_in pnet_eqb pnet_eqb_eq) in O; [|now apply nodup_filter_fst]. change (w_networks (delete_source source w)) with (w_networks (snd begin)) in O. unfold state. clear -O.
      revert O. generalize begin as s. revert cc. induction stmts as [|q l IH]; intros cc s O; [now exists cc|]. cbn [fold_left]. destruct (exec_net_kept q s n cc all src O) as (cc' & O'). exact (IH cc' _ O'). }
    destruct X as (cc' & X). exists cc'. destruct state_keyed as (_ & _ & _ & _ & K & _). apply (find_in pnet_eqb pnet_eqb_eq _ _ _ K) in X.
    destruct final_nets as (l & _ & _ & ->). apply in_or_app. now left.
  Qed.
End Source.
