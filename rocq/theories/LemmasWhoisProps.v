(** The import of a source of WHOIS data, and of all of them *)
From Coq Require Import String.
From Coq Require Import NArith ZArith List Bool Lia ZifyBool ZifyNat ZifyN.
From Verif Require Import Base ModelCountryCode ModelStringPool SpecText LemmasStringPool ModelImport SpecImport LemmasImport
  LemmasImportTable LemmasImportProps ModelCompile ModelGeofeed SpecGeofeed LemmasGeofeed ModelOverrides SpecOverrides LemmasOverrides
  ModelFeeds SpecFeeds LemmasFeeds ModelWhois SpecWhois LemmasWhoisTable LemmasWhois LemmasWhoisSource.
Import ListNotations.
Open Scope N_scope.

Section Whois.
  Variable decode : list N -> cstr.
  Variable decode_strict : list N -> option cstr.
  Variables space digit : N -> bool.
  Variable upper : cstr -> cstr.
  Variable py_int : cstr -> option Z.
  Variable py_log2 : Z -> option Z.
  Variable py_addr : cstr -> option (N * N).
  Variable py_net : cstr -> option pnet.
  Variables is_global is_unspecified : pnet -> bool.
  Variable urlparse : cstr -> option (cstr * cstr).
  Variable py_csv : list (list N) -> option (list arin).
  Variable web : cstr -> option (list (list N)).
  Variable countries : list cstr.
  Hypothesis Sp : forall c, 97 <= c <= 122 -> space c = false.
  Hypothesis Dg : digit 83 = false.
  Notation process_source := (process_source decode decode_strict space digit upper py_int py_log2 py_addr py_net is_global is_unspecified urlparse py_csv web countries).
  Notation importable := (importable decode decode_strict space digit upper py_int py_log2 py_addr py_net is_global is_unspecified urlparse py_csv web countries).
  Notation items_are := (items_are decode space py_csv web).
  Notation readable := (readable decode_strict space digit upper py_int py_log2 py_addr py_net is_global is_unspecified urlparse countries).
  Notation after_as := (SpecWhois.after_as space digit upper py_int).
  Notation after_link := (SpecWhois.after_link space digit py_addr py_net is_global is_unspecified urlparse).
  Notation given_net := (SpecWhois.given_net decode_strict space py_int py_log2 py_addr is_global is_unspecified countries).
  Notation given_row := (SpecWhois.given_row decode_strict space py_int py_log2 py_addr is_global is_unspecified countries).
  Notation rir_net := (SpecWhois.rir_net space digit upper py_addr py_net is_global is_unspecified countries).
  Notation rir_row := (SpecWhois.rir_row space digit upper py_addr py_net is_global is_unspecified countries).
  Notation known_row := (SpecWhois.known_row decode_strict space digit upper py_int py_log2 py_addr py_net is_global is_unspecified countries).

  Lemma source_imported : forall source feeds w, (exists w', process_source source feeds w = Some w') <-> importable feeds.
  Proof.
    intros source feeds w. split.
    - intros (w' & H). apply source_items in H as (items & H1 & H2 & _); [|exact Sp|exact Dg]. now exists items.
    - intros (items & H1 & H2). eexists. apply source_items; [exact Sp|exact Dg|]. exists items. split; [exact H1|]. split; [exact H2|reflexivity].
  Qed.
  Notation made := (made (item_stmts decode_strict space digit upper py_int py_log2 py_addr py_net is_global is_unspecified urlparse countries)).
  Lemma csv_feed : forall feeds items r, items_are feeds items -> In (Csv r) items -> In ArinNames (map fst feeds).
  Proof.
    intros feeds items r H. induction H as [|fmt url fs f l its' Wb F H IH]; intros I1; [destruct I1|]. apply in_app_or in I1 as [I1|I1]; cbn [map In fst].
    - left. destruct fmt; [| |reflexivity]; cbn [feed_items] in F; subst l; apply in_map_iff in I1 as (b & E3 & _); discriminate.
    - right. exact (IH I1).
  Qed.
  Section One.
    Variables (source : cstr) (feeds : list (format * cstr)) (w w' : whois) (items : list item).
    Hypothesis ok : tables_ok w.
    Hypothesis its : items_are feeds items.
    Hypothesis rd : forall i, In i items -> readable i.
    Hypothesis fin : w' = finish source (fold_left (exec source) (concat (map made items)) (mkTemp [] [] [], delete_source source w)).
    Let sp := items_made decode decode_strict space digit upper py_int py_log2 py_addr py_net is_global is_unspecified urlparse py_csv web countries Sp Dg feeds items its rd.
    Notation org_says := (org_says space upper).
    Notation dummy_says := (dummy_says space digit upper).
    Notation as_says := (as_says space digit upper).
    Notation net_says := (net_says space digit upper py_addr py_net is_global is_unspecified countries).
    Notation link_says := (link_says space digit py_addr py_net is_global is_unspecified urlparse).
    Notation delegated := (delegated decode_strict space py_int py_log2 py_addr is_global is_unspecified countries).
    Notation arin_says := (arin_says py_int).
    Lemma sp_org : forall i h n, In i items -> (In (PutOrg h n) (made i) <-> org_says i h n).
    Proof. intros i h n I1. apply (sp i I1). Qed.
    Lemma sp_dummy : forall i h n, In i items -> (In (DummyOrg h n) (made i) <-> dummy_says i h n).
    Proof. intros i h n I1. apply (sp i I1). Qed.
    Lemma sp_as : forall i z h, In i items -> (In (PutAs z h) (made i) <-> as_says i z h).
    Proof. intros i h n I1. apply (sp i I1). Qed.
    Lemma sp_net : forall i n cc all, In i items -> (In (PutNet n cc all) (made i) <-> net_says i n all /\ cc = hd_error all).
    Proof. intros i n cc all I1. apply (sp i I1). Qed.
    Lemma sp_link : forall i n url, In i items -> (In (PutLink n url) (made i) <-> link_says i n url).
    Proof. intros i h n I1. apply (sp i I1). Qed.
    Lemma sp_del : forall i n cc, In i items -> (In (PutNetwork n cc) (made i) <-> delegated i n cc).
    Proof. intros i h n I1. apply (sp i I1). Qed.
    Lemma sp_arin : forall i z name, In i items -> (In (AddAs z name) (made i) <-> arin_says i z name).
    Proof. intros i h n I1. apply (sp i I1). Qed.
    Lemma one_net : forall i n a a', net_says i n a -> net_says i n a' -> a = a'.
    Proof. exact (net_says_one decode decode_strict space digit upper py_int py_addr py_net is_global is_unspecified urlparse py_csv web countries). Qed.
    Lemma one_del : forall i n c c', delegated i n c -> delegated i n c' -> c = c'.
    Proof. exact (delegated_one decode_strict space py_int py_log2 py_addr is_global is_unspecified countries). Qed.
    Lemma source_as : forall z name src, In (z, (name, src)) (w_autnums w') <-> after_as source w items z name src.
    Proof.
      destruct ok as (K1 & K2 & K3 & _). rewrite fin.
      apply (names_are source w K1 K2 K3 org_says dummy_says as_says arin_says items made sp_org sp_dummy sp_as sp_arin).
      - intros i h n n'. apply org_says_one.
      - intros i h n n'. apply dummy_says_one.
      - intros i h n n'. apply as_says_one.
      - intros i h n n'. apply arin_says_one.
    Qed.
    Lemma source_links : forall n url src, In (n, url, src) (w_links w') <-> after_link source w items n url src.
    Proof.
      destruct ok as (K1 & K2 & K3 & _). rewrite fin. apply (links_are source w K1 K2 K3 link_says items made sp_link).
    Qed.
    Hypothesis Wa : forall s bits a, py_addr s = Some (bits, a) -> (bits = 32 \/ bits = 128) /\ a < 2 ^ bits.
    Hypothesis Wn : forall s n, py_net s = Some n -> net_wf n.
    Lemma wf_says : forall i n a, In i items -> net_says i n a -> net_wf n.
    Proof. intros i n a _ H. eapply net_says_wf; eassumption. Qed.
    Lemma wf_dels : forall i n c, In i items -> delegated i n c -> net_wf n.
    Proof. intros i n c _ H. eapply delegated_wf; eassumption. Qed.
    Lemma source_nets :
      (forall n cc all src, given_net source w items n cc all src -> In (n, (cc, all, src)) (w_networks w')) /\
      (forall n cc all src, In (n, (cc, all, src)) (w_networks w') ->
        given_net source w items n cc all src \/ (rir_net items n cc all /\ src = source /\ forall cc' all' src', ~ given_net source w items n cc' all' src')).
    Proof.
      destruct ok as (K1 & K2 & K3 & W). rewrite fin. exact (nets_after source w K1 K2 K3 net_says delegated items made sp_net sp_del one_net one_del W wf_says wf_dels).
    Qed.
    Lemma source_located : (forall n cc all, rir_net items n cc all -> cc <> None) ->
      forall bits v c, located (row_in w') bits v c <-> located (known_row source w items) bits v c.
    Proof.
      destruct ok as (K1 & K2 & K3 & W). rewrite fin. exact (nets_located source w K1 K2 K3 net_says delegated items made sp_net sp_del one_net one_del W wf_says wf_dels).
    Qed.
    Lemma source_more : forall r p, row_in w' r -> ~ given_row source w items r ->
      (exists q, rir_row items q /\ p_bits (r_net q) = p_bits (r_net r) /\ p_len (r_net q) < p_len (r_net r)) ->
      around (row_in w') (r_net r) p -> r_country p = None \/ r_country p <> r_country r.
    Proof.
      destruct ok as (K1 & K2 & K3 & W). rewrite fin. exact (nets_more source w K1 K2 K3 net_says delegated items made sp_net sp_del one_net one_del W wf_says wf_dels).
    Qed.
    Lemma source_ok : tables_ok w'.
    Proof.
      destruct ok as (K1 & K2 & K3 & W). rewrite fin. exact (finish_keyed source w K1 K2 K3 net_says delegated items made sp_net sp_del one_net one_del W wf_says wf_dels).
    Qed.
    Lemma source_others : forall src, src <> source -> (In ArinNames (map fst feeds) -> source = txt "ARIN") -> others_same w w' src.
    Proof.
      intros src Ns Fa. destruct ok as (K1 & K2 & K3 & W). split; [|split].
      - intros n all. split.
        + intros (cc & H). apply source_nets in H as [[(_ & O & _)|(c & _ & _ & [(cc' & O & _)|(_ & _ & E)])]|(_ & E & _)]; [now exists cc|now exists cc'|congruence|congruence].
        + intros (cc & H). rewrite fin. apply (other_net_kept source w K1 K2 K3 items made) with (cc := cc). split; [exact H|exact Ns].
      - intros z. split.
        + intros (name & H). apply source_as in H. assert (B : forall n, before_as source w arin_says items z n src -> exists n', In (z, (n', src)) (w_autnums w)).
          { intros n [(O & _)|(_ & F & E)]; [now exists n|]. exfalso. apply Ns. rewrite E. symmetry. apply Fa. destruct F as (x & i & y & E2 & (r & _ & _ & _ & _ & -> & _) & _).
            apply (csv_feed feeds items r its). rewrite E2. apply in_or_app. right. now left. }
          destruct H as [(_ & [(old & H)|(_ & E)])|(_ & H)]; [exact (B _ H)|congruence|exact (B _ H)].
        + intros (name & H). rewrite fin. apply (other_as_kept source w K1 K2 K3 arin_says items made sp_arin) with (name := name); [intros i h n n'; apply arin_says_one|]. split; [exact H|exact Ns].
      - intros n url H. apply source_links in H as [(_ & E)|(_ & H & _)]; [congruence|exact H].
    Qed.
  End One.

  Lemma source_names : forall source feeds w w', tables_ok w -> process_source source feeds w = Some w' ->
    exists items, items_are feeds items /\ (forall i, In i items -> readable i) /\
      forall z name src, In (z, (name, src)) (w_autnums w') <-> after_as source w items z name src.
  Proof.
    intros source feeds w w' Ok H. apply source_items in H as (items & H1 & H2 & H3); [|exact Sp|exact Dg]. exists items. split; [exact H1|]. split; [exact H2|].
    exact (source_as source feeds w w' items Ok H1 H2 H3).
  Qed.
  Lemma source_geofeeds : forall source feeds w w', tables_ok w -> process_source source feeds w = Some w' ->
    exists items, items_are feeds items /\ (forall i, In i items -> readable i) /\
      forall n url src, In (n, url, src) (w_links w') <-> after_link source w items n url src.
  Proof.
    intros source feeds w w' Ok H. apply source_items in H as (items & H1 & H2 & H3); [|exact Sp|exact Dg]. exists items. split; [exact H1|]. split; [exact H2|].
    exact (source_links source feeds w w' items Ok H1 H2 H3).
  Qed.
  (** ** All sources *)
  Hypothesis Wa : forall s bits a, py_addr s = Some (bits, a) -> (bits = 32 \/ bits = 128) /\ a < 2 ^ bits.
  Hypothesis Wn : forall s n, py_net s = Some n -> net_wf n.
  Lemma source_networks : forall source feeds w w', tables_ok w -> process_source source feeds w = Some w' ->
    exists items, items_are feeds items /\ (forall i, In i items -> readable i) /\
      (forall n cc all src, given_net source w items n cc all src -> In (n, (cc, all, src)) (w_networks w')) /\
      (forall n cc all src, In (n, (cc, all, src)) (w_networks w') ->
        given_net source w items n cc all src \/ (rir_net items n cc all /\ src = source /\ forall cc' all' src', ~ given_net source w items n cc' all' src')).
  Proof.
    intros source feeds w w' Ok H. apply source_items in H as (items & H1 & H2 & H3); [|exact Sp|exact Dg]. exists items. split; [exact H1|]. split; [exact H2|].
    exact (source_nets source feeds w w' items Ok H1 H2 H3 Wa Wn).
  Qed.
  Lemma source_countries : forall source feeds w w', tables_ok w -> process_source source feeds w = Some w' ->
    exists items, items_are feeds items /\ (forall i, In i items -> readable i) /\
      ((forall n cc all, rir_net items n cc all -> cc <> None) ->
       forall bits v c, located (row_in w') bits v c <-> located (known_row source w items) bits v c).
  Proof.
    intros source feeds w w' Ok H. apply source_items in H as (items & H1 & H2 & H3); [|exact Sp|exact Dg]. exists items. split; [exact H1|]. split; [exact H2|].
    exact (source_located source feeds w w' items Ok H1 H2 H3 Wa Wn).
  Qed.
  Lemma source_less : forall source feeds w w', tables_ok w -> process_source source feeds w = Some w' ->
    exists items, items_are feeds items /\ (forall i, In i items -> readable i) /\
      forall r p, row_in w' r -> ~ given_row source w items r ->
        (exists q, rir_row items q /\ p_bits (r_net q) = p_bits (r_net r) /\ p_len (r_net q) < p_len (r_net r)) ->
        around (row_in w') (r_net r) p -> r_country p = None \/ r_country p <> r_country r.
  Proof.
    intros source feeds w w' Ok H. apply source_items in H as (items & H1 & H2 & H3); [|exact Sp|exact Dg]. exists items. split; [exact H1|]. split; [exact H2|].
    exact (source_more source feeds w w' items Ok H1 H2 H3 Wa Wn).
  Qed.
  Lemma source_kept_ok : forall source feeds w w', tables_ok w -> process_source source feeds w = Some w' -> tables_ok w'.
  Proof.
    intros source feeds w w' Ok H. apply source_items in H as (items & H1 & H2 & H3); [|exact Sp|exact Dg]. exact (source_ok source feeds w w' items Ok H1 H2 H3 Wa Wn).
  Qed.
  Lemma source_kept_others : forall source feeds w w' src, tables_ok w -> process_source source feeds w = Some w' -> src <> source ->
    (In ArinNames (map fst feeds) -> source = txt "ARIN") -> others_same w w' src.
  Proof.
    intros source feeds w w' src Ok H. apply source_items in H as (items & H1 & H2 & H3); [|exact Sp|exact Dg]. exact (source_others source feeds w w' items Ok H1 H2 H3 Wa Wn src).
  Qed.
  Lemma same_refl : forall w src, others_same w w src.
  Proof. intros w src. split; [|split]; intros; try reflexivity. assumption. Qed.
  Lemma same_trans : forall a b c src, others_same a b src -> others_same b c src -> others_same a c src.
  Proof.
    intros a b c src (H1 & H2 & H3) (H4 & H5 & H6). split; [|split].
    - intros n all. now rewrite H4, H1.
    - intros z. now rewrite H5, H2.
    - intros n url H. apply H3. now apply H6.
  Qed.
  Notation process_sources := (process_sources decode decode_strict space digit upper py_int py_log2 py_addr py_net is_global is_unspecified urlparse py_csv web countries).
  Notation update_whois := (update_whois decode decode_strict space digit upper py_int py_log2 py_addr py_net is_global is_unspecified urlparse py_csv web countries).
  Lemma asked_iff : forall wanted name, requested wanted name = true <-> asked wanted name.
  Proof. apply requested_iff. Qed.
  Lemma sources_exit : forall wanted l w ok, snd (process_sources wanted l w ok) = true <->
    ok = true /\ forall name feeds, In (name, feeds) l -> asked wanted name -> importable feeds.
  Proof.
    intros wanted. induction l as [|[name feeds] l IH]; intros w ok; cbn [ModelWhois.process_sources].
    - cbn [snd]. split; [intros ->; split; [reflexivity|intros ? ? []]|intros (H & _); exact H].
    - destruct (requested wanted name) eqn:R; cbn [negb].
      + apply asked_iff in R. destruct (process_source name feeds w) as [w'|] eqn:P.
        * assert (Im : importable feeds) by (apply (source_imported name feeds w); now exists w'). rewrite IH. split; intros (H1 & H2); (split; [exact H1|]).
          -- intros n f [E|I1]; [injection E as <- <-; auto|now apply H2].
          -- intros n f I1. apply H2. now right.
        * rewrite IH. split; [intros (H & _); discriminate|]. intros (_ & H). exfalso. assert (Im : importable feeds) by (apply (H name); [now left|exact R]).
          apply (source_imported name feeds w) in Im as (w' & E). congruence.
      + assert (Na : ~ asked wanted name) by (rewrite <- asked_iff; congruence). rewrite IH. split; intros (H1 & H2); (split; [exact H1|]).
        * intros n f [E|I1]; [injection E as <- <-; contradiction|now apply H2].
        * intros n f I1. apply H2. now right.
  Qed.
  Lemma sources_unchanged : forall wanted l w ok, (forall name feeds, In (name, feeds) l -> asked wanted name -> ~ importable feeds) -> fst (process_sources wanted l w ok) = w.
  Proof.
    intros wanted. induction l as [|[name feeds] l IH]; intros w ok H; cbn [ModelWhois.process_sources]; [reflexivity|].
    assert (H' : forall n f, In (n, f) l -> asked wanted n -> ~ importable f) by (intros n f I1; apply (H n); now right).
    destruct (requested wanted name) eqn:R; cbn [negb]; [|now apply IH]. apply asked_iff in R. destruct (process_source name feeds w) as [w'|] eqn:P; [|now apply IH].
    exfalso. apply (H name feeds (or_introl eq_refl) R). apply (source_imported name feeds w). now exists w'.
  Qed.
  Lemma sources_others : forall wanted l w ok src, tables_ok w -> (forall name feeds, In (name, feeds) l -> In ArinNames (map fst feeds) -> name = txt "ARIN") ->
    ~ (In src (map fst l) /\ asked wanted src) -> tables_ok (fst (process_sources wanted l w ok)) /\ others_same w (fst (process_sources wanted l w ok)) src.
  Proof.
    intros wanted. induction l as [|[name feeds] l IH]; intros w ok src Ok Fa Ns; cbn [ModelWhois.process_sources fst]; [split; [exact Ok|apply same_refl]|].
    assert (Fa' : forall n f, In (n, f) l -> In ArinNames (map fst f) -> n = txt "ARIN") by (intros n f I1; apply Fa; now right).
    assert (Ns' : ~ (In src (map fst l) /\ asked wanted src)) by (intros (I1 & A); apply Ns; split; [cbn [map]; now right|exact A]).
    destruct (requested wanted name) eqn:R; cbn [negb]; [|now apply IH]. apply asked_iff in R.
    assert (src <> name) by (intros ->; apply Ns; split; [now left|exact R]).
    destruct (process_source name feeds w) as [w'|] eqn:P; [|now apply IH].
    assert (Ok' : tables_ok w') by exact (source_kept_ok _ _ _ _ Ok P). destruct (IH w' ok src Ok' Fa' Ns') as (H1 & H2). split; [exact H1|].
    apply (same_trans _ w'); [|exact H2]. apply (source_kept_others name feeds w w' src Ok P H). apply (Fa name). now left.
  Qed.
  Lemma whois_arin : forall name feeds, In (name, feeds) whois_sources -> In ArinNames (map fst feeds) -> name = txt "ARIN".
  Proof.
    intros name feeds I1 H. unfold whois_sources in I1. repeat (destruct I1 as [E|I1]; [injection E as <- <-; cbn [map fst In] in H; first [reflexivity|exfalso; decompose [or] H; first [discriminate|contradiction]]|]). destruct I1.
  Qed.
  Lemma whois_update : forall wanted w w' code, tables_ok w -> update_whois wanted w = (w', code) -> countries <> [] ->
    (code = 0%Z <-> forall name feeds, In (name, feeds) whois_sources -> asked wanted name -> importable feeds) /\
    ((forall name feeds, In (name, feeds) whois_sources -> asked wanted name -> ~ importable feeds) -> w' = w) /\
    tables_ok w' /\
    (forall src, ~ (In src (map fst whois_sources) /\ asked wanted src) -> others_same w w' src).
  Proof.
    intros wanted w w' code Ok H Nc. unfold ModelWhois.update_whois in H. destruct countries as [|c cs] eqn:Ec; [contradiction|]. rewrite <- Ec in *.
    destruct (process_sources wanted whois_sources w true) as [w1 ok1] eqn:P. injection H as <- <-.
    assert (E1 : fst (process_sources wanted whois_sources w true) = w1) by now rewrite P. assert (E2 : snd (process_sources wanted whois_sources w true) = ok1) by now rewrite P.
    split; [|split; [|split]].
    - pose proof (sources_exit wanted whois_sources w true) as X. rewrite E2 in X. destruct ok1.
      + split; [intros _; now apply X|reflexivity].
      + split; [discriminate|]. intros Y. assert (false = true) by (apply X; auto). discriminate.
    - intros Y. rewrite <- E1. now apply sources_unchanged.
    - rewrite <- E1. apply (sources_others wanted whois_sources w true (txt "none") Ok whois_arin). intros (I1 & _). vm_compute in I1. decompose [or] I1; try discriminate; contradiction.
    - intros src Ns. rewrite <- E1. now apply (sources_others wanted whois_sources w true src Ok whois_arin).
  Qed.
  Lemma sources_one : forall name feeds l w ok, In (name, feeds) l -> NoDup (map fst l) ->
    process_sources [name] l w ok = match process_source name feeds w with Some w' => (w', ok) | None => (w, false) end.
  Proof.
    assert (No : forall name l w ok, ~ In name (map fst l) -> process_sources [name] l w ok = (w, ok)).
    { intros name. induction l as [|[n f] l IH]; intros w ok Ni; cbn [ModelWhois.process_sources]; [reflexivity|].
      destruct (requested [name] n) eqn:R; cbn [negb].
      - apply asked_iff in R as [R|[R|[]]]; [discriminate|]. exfalso. apply Ni. left. now symmetry.
      - apply IH. intros I1. apply Ni. now right. }
    intros name feeds. induction l as [|[n f] l IH]; intros w ok I1 Nd; [destruct I1|]. cbn [ModelWhois.process_sources]. apply NoDup_cons_iff in Nd as (N1 & Nd). destruct I1 as [E|I1].
    - injection E as -> ->. replace (requested [name] name) with true by (symmetry; apply asked_iff; right; now left). cbn [negb].
      destruct (process_source name feeds w); now apply No.
    - destruct (requested [name] n) eqn:R; cbn [negb]; [|now apply IH]. apply asked_iff in R as [R|[R|[]]]; [discriminate|]. exfalso. apply N1. rewrite <- R.
      exact (in_map fst _ (name, feeds) I1).
  Qed.
  Lemma whois_names : NoDup (map fst whois_sources).
  Proof. repeat constructor; vm_compute; intros H; decompose [or] H; try discriminate; contradiction. Qed.
  Lemma whois_one : forall name feeds w, In (name, feeds) whois_sources -> countries <> [] ->
    (forall w', process_source name feeds w = Some w' -> update_whois [name] w = (w', 0%Z)) /\ (~ importable feeds -> update_whois [name] w = (w, 1%Z)).
  Proof.
    intros name feeds w I1 Nc. pose proof (sources_one name feeds whois_sources w true I1 whois_names) as X.
    unfold ModelWhois.update_whois. destruct countries as [|c cs] eqn:Ec; [contradiction|]. rewrite <- Ec in *. split.
    - intros w' H. rewrite X, H. reflexivity.
    - intros Ni. rewrite X. destruct (process_source name feeds w) as [w'|] eqn:P; [|reflexivity]. exfalso. apply Ni. apply (source_imported name feeds w). now exists w'.
  Qed.
  Lemma whois_no_countries : forall wanted w, countries = [] -> update_whois wanted w = (w, 1%Z).
  Proof. intros wanted w E. unfold ModelWhois.update_whois. now rewrite E. Qed.
End Whois.

(** ** the table of sources *)
Lemma ends_with_at n suffix s : skipn n s = suffix -> ends_with suffix s.
Proof. intros <-. exists (firstn n s). symmetry. apply firstn_skipn. Qed.
Ltac ending := match goal with |- ends_with ?suf ?s =>
  let n := eval vm_compute in (List.length s - List.length suf)%nat in apply (ends_with_at n); vm_compute; reflexivity end.
Lemma whois_complete :
  map fst whois_sources = [txt "AFRINIC"; txt "APNIC"; txt "ARIN"; txt "JPNIC"; txt "LACNIC"; txt "RIPE"] /\
  forall name feeds, In (name, feeds) whois_sources ->
    (exists url, In (Standard, url) feeds /\ ends_with (txt ".db.gz") url) \/
    (forall class, In class [txt "inet6num"; txt "inetnum"; txt "aut-num"; txt "organisation"] ->
       exists url, In (Standard, url) feeds /\ ends_with (txt ".db." ++ class ++ txt ".gz") url) \/
    (exists url url', In (Extended, url) feeds /\ In (ArinNames, url') feeds).
Proof.
  split; [reflexivity|]. intros name feeds H. unfold whois_sources in H.
  destruct H as [H|[H|[H|[H|[H|[H|[]]]]]]]; injection H as <- <-.
  - left. eexists. split; [left; reflexivity|]. ending.
  - right. left. intros class [<-|[<-|[<-|[<-|[]]]]]; eexists; (split; [|]).
    + left. reflexivity.
    + ending.
    + right. left. reflexivity.
    + ending.
    + right. right. left. reflexivity.
    + ending.
    + right. right. right. left. reflexivity.
    + ending.
  - right. right. do 2 eexists. split; [left; reflexivity|right; left; reflexivity].
  - left. eexists. split; [left; reflexivity|]. ending.
  - left. eexists. split; [left; reflexivity|]. ending.
  - right. left. intros class [<-|[<-|[<-|[<-|[]]]]]; eexists; (split; [|]).
    + left. reflexivity.
    + ending.
    + right. left. reflexivity.
    + ending.
    + right. right. left. reflexivity.
    + ending.
    + right. right. right. left. reflexivity.
    + ending.
Qed.
