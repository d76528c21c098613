(** The downloader. *)
From Coq Require Import NArith ZArith List Bool Arith Lia ZifyBool ZifyNat ZifyN.
From Verif Require Import Base LemmasBase ModelCountryCode ModelStringPool ModelFile ModelDatabase ModelVerify ModelDownload SpecDownload.
Import ListNotations.
Open Scope N_scope.

Definition at_end (f : file) : Prop := pos f = length (content f).

Lemma fwrite_end f buf : at_end f -> content (fwrite f buf) = content f ++ buf /\ at_end (fwrite f buf).
Proof.
  unfold at_end. intros E. unfold fwrite. cbn [content pos]. rewrite E, firstn_all, skipn_all2 by lia.
  rewrite app_nil_r, app_length. auto.
Qed.

Lemma truncate_end f : at_end f -> truncate f = f.
Proof. destruct f as [c p]. unfold at_end, truncate. cbn. intros ->. now rewrite firstn_all. Qed.

Section Lemmas.
  Variable St : Type.
  Variable init : St.
  Variable decompress : St -> list N -> decompressed St.
  Variable check : list N -> option bool.

  Lemma receive_spec cs broken : forall s f, at_end f ->
    let (f', t) := receive St decompress s f cs broken in
    at_end f' /\ exists o, content f' = content f ++ o /\
      match t with
      | Complete => delivers St decompress s cs o
      | Broken_data => corrupted St decompress s cs o
      | Raised => True
      end.
  Proof.
    induction cs as [|c cs IH]; intros s f E; cbn [receive].
    - split; auto. exists []. rewrite app_nil_r. split; auto. destruct broken; auto. constructor.
    - destruct (length c =? 0)%nat eqn:C.
      { split; auto. exists []. rewrite app_nil_r. split; auto. destruct c; [constructor|discriminate]. }
      assert (NE : c <> []) by (destruct c; [discriminate|congruence]).
      destruct (decompress s c) as [s' b| |] eqn:D.
      + set (f1 := if (length b =? 0)%nat then f else fwrite f b).
        assert (H : content f1 = content f ++ b /\ at_end f1).
        { unfold f1. destruct (length b =? 0)%nat eqn:B; [|now apply fwrite_end].
          destruct b; [|discriminate]. now rewrite app_nil_r. }
        destruct H as [H1 H2]. specialize (IH s' f1 H2). destruct (receive _ _ s' f1 cs broken) as [f' t].
        destruct IH as (A & o & O & T). split; auto. exists (b ++ o). split; [now rewrite O, H1, app_assoc|].
        destruct t; auto; econstructor; eauto.
      + split; auto. exists []. rewrite app_nil_r. split; auto. now constructor.
      + split; auto. exists []. rewrite app_nil_r. auto.
  Qed.

  Lemma try_spec ms : forall f r, at_end f -> try_mirrors St init decompress check f ms = Returned r ->
    check r = Some true /\
    exists before m after junk o, ms = before ++ m :: after /\ Forall2 (in_vain St decompress init) before junk /\
      whole St decompress init m o /\ r = content f ++ concat junk ++ o.
  Proof.
    induction ms as [|m ms IH]; intros f r E; cbn [try_mirrors]; [discriminate|].
    destruct m as [code| |cs broken].
    - rewrite truncate_end by auto. intros H. destruct (IH f r E H) as (A & before & m & after & junk & o & -> & V & W & R).
      split; auto. exists (HttpError code :: before), m, after, ([] :: junk), o.
      split; auto. split; [constructor; auto; constructor|]. auto.
    - discriminate.
    - pose proof (receive_spec cs broken init f E) as S0. destruct (receive _ _ _ _ _ _) as [f' t].
      destruct S0 as (E' & o & O & T). destruct t.
      + destruct (check (content f')) as [[|]|] eqn:C; [|rewrite truncate_end by auto|discriminate].
        * intros [= <-]. split; auto. exists [], (Body cs broken), ms, [], o. split; auto. split; [constructor|].
          split; [exists cs, broken; auto|]. exact O.
        * intros H. destruct (IH f' r E' H) as (A & before & m & after & junk & o' & -> & V & W & R).
          split; auto. exists (Body cs broken :: before), m, after, (o :: junk), o'.
          split; auto. split; [constructor; auto; now apply v_refused|]. split; auto.
          rewrite R, O. cbn [concat]. now rewrite <- !app_assoc.
      + intros H. destruct (IH f' r E' H) as (A & before & m & after & junk & o' & -> & V & W & R).
        split; auto. exists (Body cs broken :: before), m, after, (o :: junk), o'.
        split; auto. split; [constructor; auto; now apply v_corrupted|]. split; auto.
        rewrite R, O. cbn [concat]. now rewrite <- !app_assoc.
      + discriminate.
  Qed.

  Lemma delivers_fun s cs o : delivers St decompress s cs o -> forall o', delivers St decompress s cs o' -> o = o'.
  Proof.
    induction 1 as [s|s cs|s s' c cs b o N D X IH]; intros o' X'; inversion X'; subst; auto; try contradiction.
    f_equal; [congruence|]. apply IH. congruence.
  Qed.

  Lemma receive_delivers s cs o : delivers St decompress s cs o -> forall f, at_end f ->
    exists f', receive St decompress s f cs false = (f', Complete) /\ at_end f' /\ content f' = content f ++ o.
  Proof.
    induction 1 as [s|s cs|s s' c cs b o N D X IH]; intros f E; cbn [receive].
    - exists f. rewrite app_nil_r. auto.
    - exists f. cbn. rewrite app_nil_r. auto.
    - replace (length c =? 0)%nat with false by (destruct c; [contradiction|reflexivity]). rewrite D.
      set (f1 := if (length b =? 0)%nat then f else fwrite f b).
      assert (H : content f1 = content f ++ b /\ at_end f1).
      { unfold f1. destruct (length b =? 0)%nat eqn:B; [|now apply fwrite_end].
        destruct b; [|discriminate]. now rewrite app_nil_r. }
      destruct H as [H1 H2]. destruct (IH f1 H2) as (f' & A & B & C). exists f'. rewrite app_assoc, <- H1. auto.
  Qed.

  (** A good mirror after mirrors that only report HTTP errors is used. *)
  Lemma try_good codes : forall f cs o after, at_end f -> delivers St decompress init cs o ->
    check (content f ++ o) = Some true ->
    try_mirrors St init decompress check f (map HttpError codes ++ Body cs false :: after) = Returned (content f ++ o).
  Proof.
    induction codes as [|c codes IH]; intros f cs o after E D C; cbn [map app try_mirrors].
    - destruct (receive_delivers _ _ _ D f E) as (f' & -> & _ & O). now rewrite O, C.
    - rewrite truncate_end by auto. now apply IH.
  Qed.
End Lemmas.

(** ** With the real check *)
Lemma rd_prefix f g off len h : rd f off len = Ok h -> rd (f ++ g) off len = Ok h.
Proof.
  unfold rd. destruct (off + len <=? N.of_nat (length f)) eqn:E; [|discriminate]. intros H.
  rewrite app_length. replace (off + len <=? N.of_nat (length f + length g)) with true by lia.
  rewrite <- H. f_equal. rewrite skipn_app, firstn_app. rewrite skipn_length.
  replace (N.to_nat len - (length f - N.to_nat off))%nat with 0%nat by lia. now rewrite firstn_O, app_nil_r.
Qed.

Lemma open_created f d : db_open f = Ok d -> exists h, rd f MAGIC_SIZE HEADER_SIZE = Ok h /\ d_created_at d = field h 0 8.
Proof.
  unfold db_open. destruct (check_magic f) as [v|?| |]; cbn [bind]; try discriminate.
  destruct (v =? VERSION_1); [|discriminate]. unfold read_header_v1. destruct (negb _); [discriminate|].
  destruct (rd f MAGIC_SIZE HEADER_SIZE) as [h|?| |]; cbn [bind]; try discriminate.
  destruct (read_signature _ _); cbn [bind]; try discriminate. destruct (read_signature _ _); cbn [bind]; try discriminate.
  destruct (negb _); [discriminate|]. intros H. exists h. split; auto.
  match type of H with Ok ?x = _ => assert (E : d = x) by congruence end. now rewrite E.
Qed.

Lemma created_prefix f g d d' : db_open f = Ok d -> db_open (f ++ g) = Ok d' -> d_created_at d' = d_created_at d.
Proof.
  intros A B. apply open_created in A as (h & A & ->). apply open_created in B as (h' & B & ->).
  apply (rd_prefix f g) in A. congruence.
Qed.

Lemma check_true shown k ts f : check_database shown k ts f = Some true ->
  exists d, db_open f = Ok d /\ (ts <> 0 -> ts <= d_created_at d) /\ verify d k = Ok 0%Z.
Proof.
  unfold check_database. destruct (db_open f) as [d|?| |]; try discriminate.
  destruct (negb (ts =? 0) && (py_created_at d <? Z.of_N ts)%Z) eqn:E; [discriminate|]. destruct (negb (shown _)); [discriminate|].
  destruct (verify d k) as [r|?| |] eqn:V; try discriminate. intros H. exists d. split; auto.
  split; [unfold py_created_at in E; destruct (N.ltb_spec (d_created_at d) (2 ^ 63)); lia|].
  destruct (r =? 0)%Z eqn:Z0; [|discriminate]. apply Z.eqb_eq in Z0. congruence.
Qed.

Lemma outdated_prefix shown k ts f g d : db_open f = Ok d -> ts <> 0 -> d_created_at d < ts ->
  check_database shown k ts (f ++ g) <> Some true.
Proof.
  intros O T C H. apply check_true in H as (d' & O' & L & _). pose proof (created_prefix f g d d' O O'). lia.
Qed.

Lemma download_outdated St init decompress shown k ts cs o ms d r : delivers St decompress init cs o ->
  db_open o = Ok d -> ts <> 0 -> d_created_at d < ts ->
  download St init decompress (check_database shown k ts) (Body cs false :: ms) <> Returned r.
Proof.
  intros D O T C. unfold download. cbn [try_mirrors].
  destruct (receive_delivers St decompress init cs o D (mkFile [] 0) eq_refl) as (f & -> & E & F).
  cbn [content app] in F. rewrite F.
  destruct (check_database shown k ts o) as [[|]|] eqn:K; [| |discriminate].
  { exfalso. apply (outdated_prefix shown k ts o [] d O T C). now rewrite app_nil_r. }
  rewrite truncate_end by auto. intros H. apply try_spec in H as (A & _ & _ & _ & junk & o' & _ & _ & _ & R); auto.
  rewrite F in R. apply (outdated_prefix shown k ts o (concat junk ++ o') d O T C). congruence.
Qed.

Lemma download_spec St init decompress check ms r : download St init decompress check ms = Returned r ->
  check r = Some true /\
  exists before m after junk o, ms = before ++ m :: after /\ Forall2 (in_vain St decompress init) before junk /\
    whole St decompress init m o /\ r = concat junk ++ o.
Proof. intros H. now apply (try_spec St init decompress check ms (mkFile [] 0)) in H. Qed.

Lemma download_checked St init decompress shown k ts ms r :
  download St init decompress (check_database shown k ts) ms = Returned r ->
  exists d, db_open r = Ok d /\ (ts <> 0 -> ts <= d_created_at d) /\ verify d k = Ok 0%Z.
Proof. intros H. apply download_spec in H as [H _]. now apply (check_true shown). Qed.

Lemma concat_nil {A} (l : list (list A)) : Forall (fun x => x = []) l -> concat l = [].
Proof. induction 1 as [|x l -> _ IH]; auto. Qed.

Lemma download_good St init decompress check codes cs o after : delivers St decompress init cs o ->
  check o = Some true ->
  download St init decompress check (map HttpError codes ++ Body cs false :: after) = Returned o.
Proof. intros D C. now apply (try_good St init decompress check codes (mkFile [] 0) cs o after). Qed.

Lemma vain_nothing St init decompress before : forall junk, Forall2 (in_vain St decompress init) before junk ->
  (forall m o, In m before -> in_vain St decompress init m o -> o = []) -> concat junk = [].
Proof.
  induction before as [|m before IH]; intros junk V Q; inversion V as [|? j ? js V1 V2]; subst; auto.
  cbn [concat]. rewrite (Q m j (or_introl eq_refl) V1). apply IH; auto. intros m' o I0. apply Q. now right.
Qed.

Lemma download_one St init decompress check ms r : download St init decompress check ms = Returned r ->
  exists before m after o, ms = before ++ m :: after /\ whole St decompress init m o /\
    ((forall b j, In b before -> in_vain St decompress init b j -> j = []) -> r = o).
Proof.
  intros H. apply download_spec in H as (C & before & m & after & junk & o & E & V & W & R).
  exists before, m, after, o. split; auto. split; auto. intros Q.
  rewrite R, (vain_nothing St init decompress before junk V Q). reflexivity.
Qed.

(** ** Concrete mirrors *)
(** A database without content, created at [t], with a signature; a key that
    accepts exactly the databases created at 5 and at 10; no compression, but a
    chunk [0] is corrupted. *)
Definition small (t : N) (sig : list N) : list N :=
  MAGIC ++ [1] ++ to_be 8 t ++ repeat 0 52 ++ [0; N.of_nat (length sig)] ++ [0; 0] ++ sig ++
  repeat 0 (N.to_nat 4128 - length sig).
Definition signed (t : N) : list N := small t [7; 7].
Definition key : verifier := mkVerifier true 1 (fun _ => 1%Z) (fun _ stream sig =>
  if (cstr_eqb stream (small 5 []) || cstr_eqb stream (small 10 [])) && cstr_eqb sig [7; 7] then 1%Z else 0%Z).
Definition plain (_ : unit) (c : list N) : decompressed unit := if cstr_eqb c [0] then LzmaError else Out tt c.
Definition chunks (f : list N) : list (list N) := map (fun i => firstn 1024 (skipn (1024 * i) f)) (seq 0 5).
Definition get_db := download unit tt plain (check_database (fun _ => true) key 7).

Lemma plain_whole cs o : delivers unit plain tt cs o -> (length o <= length (concat cs))%nat.
Proof.
  intros H. remember tt as s eqn:S0. clear S0. induction H as [s|s cs|s s' c cs b o N D X IH]; cbn; try lia.
  rewrite !app_length. unfold plain in D. destruct (cstr_eqb c [0]); [discriminate|].
  assert (b = c) by congruence. subst. lia.
Qed.

Lemma one_mirror_witness : exists ms f, get_db ms = Returned f /\
  forall m, In m ms -> ~ whole unit plain tt m f.
Proof.
  exists [Body [firstn 1024 (signed 10); [0]] false; Body (tl (chunks (signed 10))) false], (signed 10).
  split; [vm_compute; reflexivity|].
  assert (L : N.of_nat (length (signed 10)) = 4200) by (vm_compute; reflexivity).
  intros m [<-|[<-|[]]] (cs & b & E & D); apply plain_whole in D.
  - assert (Q : cs = [firstn 1024 (signed 10); [0]]) by congruence. rewrite Q in D.
    assert (L2 : N.of_nat (length (concat [firstn 1024 (signed 10); [0]])) = 1025) by (vm_compute; reflexivity). lia.
  - assert (Q : cs = tl (chunks (signed 10))) by congruence. rewrite Q in D.
    assert (L2 : N.of_nat (length (concat (tl (chunks (signed 10))))) = 3176) by (vm_compute; reflexivity). lia.
Qed.

Lemma broken_witness : exists m1 m2, in_vain unit plain tt m1 (firstn 1024 (signed 10)) /\
  get_db [m1; m2] = NotFound /\ get_db [m2] = Returned (signed 10).
Proof.
  exists (Body [firstn 1024 (signed 10); [0]] false), (Body (chunks (signed 10)) false). split.
  - apply v_corrupted. rewrite <- (app_nil_r (firstn 1024 (signed 10))) at 2.
    apply (c_chunk unit plain tt tt _ [[0]] (firstn 1024 (signed 10)) []).
    + vm_compute. discriminate.
    + vm_compute. reflexivity.
    + apply c_bad; [discriminate|reflexivity].
  - split; vm_compute; reflexivity.
Qed.
