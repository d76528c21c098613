(** Lemmas for C84 *)
From Coq Require Import String.
From Coq Require Import NArith ZArith List Bool Arith Lia ZifyBool ZifyNat ZifyN Permutation.
From Verif Require Import Base ModelCountryCode SpecText ModelImport SpecImport ModelGeofeed SpecGeofeed LemmasGeofeed ModelTasks SpecTasks.
Import ListNotations.
Open Scope N_scope.

(** ** Lists with unique keys *)
Lemma split_perm {A K} (eqb : K -> K -> bool) (f : A -> K) k x : (forall a b, eqb a b = true <-> a = b) ->
  forall l, NoDup (map f l) -> find (fun y => eqb (f y) k) l = Some x -> Permutation l (x :: filter (fun y => negb (eqb (f y) k)) l).
Proof.
  intros E. induction l as [|a l IH]; intros D H; [discriminate|]. cbn [find] in H. cbn [map] in D. apply NoDup_cons_iff in D as [D1 D2].
  cbn [filter]. destruct (eqb (f a) k) eqn:Ea; cbn [negb].
  - injection H as <-. apply perm_skip. apply E in Ea. subst k.
    replace (filter (fun y => negb (eqb (f y) (f a))) l) with l; [reflexivity|].
    clear - E D1. induction l as [|b l IH]; [reflexivity|]. cbn [filter]. destruct (eqb (f b) (f a)) eqn:Eb; cbn [negb].
    + apply E in Eb. exfalso. apply D1. left. exact Eb.
    + f_equal. apply IH. intros H. apply D1. now right.
  - rewrite (IH D2 H) at 1. apply perm_swap.
Qed.
Lemma find_key {A K} (eqb : K -> K -> bool) (f : A -> K) k x l : (forall a b, eqb a b = true <-> a = b) ->
  find (fun y => eqb (f y) k) l = Some x -> In x l /\ f x = k.
Proof. intros E H. apply find_some in H as [I1 H]. split; auto. now apply E. Qed.
Lemma find_none_key {A K} (eqb : K -> K -> bool) (f : A -> K) k l : (forall a b, eqb a b = true <-> a = b) ->
  ~ In k (map f l) -> find (fun y => eqb (f y) k) l = None.
Proof.
  intros E H. destruct (find (fun y => eqb (f y) k) l) eqn:F; auto. apply (find_key eqb f k) in F as [I1 F]; auto. destruct H. rewrite <- F. now apply in_map.
Qed.
Lemma task_eqb_eq a b : task_eqb a b = true <-> a = b.
Proof. destruct a, b; cbn [task_eqb]; rewrite ?N.eqb_eq; split; congruence. Qed.
Lemma nodup_app_l {A} (l m : list A) : NoDup (l ++ m) -> NoDup l.
Proof. induction l as [|x l IH]; intros D; [constructor|]. cbn [app] in D. apply NoDup_cons_iff in D as [D1 D2]. constructor; [|auto]. intros H. apply D1. apply in_or_app. now left. Qed.
Lemma nodup_app_r {A} (l m : list A) : NoDup (l ++ m) -> NoDup m.
Proof. induction l as [|x l IH]; intros D; [exact D|]. cbn [app] in D. apply NoDup_cons_iff in D as [D1 D2]. auto. Qed.
Lemma nodup_disjoint {A} (l m : list A) x : NoDup (l ++ m) -> In x l -> In x m -> False.
Proof.
  induction l as [|y l IH]; intros D I1 I2; [destruct I1|]. cbn [app] in D. apply NoDup_cons_iff in D as [D1 D2]. destruct I1 as [->|I1]; [|auto].
  apply D1. apply in_or_app. now right.
Qed.

Definition rid (x : geofeed * Z) : N := g_id (fst x).
Definition look (fin : list (N * Z)) (id : N) : option Z := option_map snd (find (fun x => fst x =? id) fin).
Lemma look_in fin id t : look fin id = Some t -> In (id, t) fin.
Proof.
  unfold look. destruct (find (fun x => fst x =? id) fin) as [[i u]|] eqn:F; [|discriminate]. intros H. injection H as <-.
  apply find_some in F as [I1 E]. cbn [fst] in E. apply N.eqb_eq in E. now subst.
Qed.
Lemma look_none fin id : ~ In id (map fst fin) -> look fin id = None.
Proof. intros H. unfold look. rewrite (find_none_key N.eqb fst id fin N.eqb_eq H). reflexivity. Qed.
Lemma look_some fin id : In id (map fst fin) -> exists t, look fin id = Some t.
Proof.
  intros H. unfold look. destruct (find (fun x => fst x =? id) fin) as [x|] eqn:F; [now exists (snd x)|].
  apply in_map_iff in H as (x & E & I1). pose proof (find_none _ _ F x I1) as X. cbn in X. apply N.eqb_neq in X. contradiction.
Qed.

(** ** The database *)
Section Db.
  Variable decode : list N -> option cstr.
  Variable space : N -> bool.
  Variable upper : cstr -> cstr.
  Variable py_net : cstr -> option pnet.
  Variable web : cstr -> fetched.
  Notation step := (turn_step decode space upper py_net web).
  Notation steps := (turns decode space upper py_net web).
  Notation smooth_ := (smooth decode space upper py_net web).
  Notation resp_ := (resp decode space upper py_net web).
  Variable base : geo.
  Variable L : list geofeed.
  Variables t0 t2 : Z.
  Hypothesis D1 : NoDup (map g_id (ge_feeds base)).
  Hypothesis LI : forall g, In g L -> In g (ge_feeds base).

  Definition ids (w : world) (fin : list (N * Z)) : list N := map g_id (w_waiting w) ++ map rid (w_running w) ++ map fst fin.
  Definition after (fin : list (N * Z)) (h : geofeed) : geofeed := match look fin (g_id h) with Some t => res t web h | None => h end.
  Record db_inv (w : world) (fin : list (N * Z)) : Prop := mkInv {
    i_waiting : forall g, In g (w_waiting w) -> In g L;
    i_running : forall g t, In (g, t) (w_running w) -> In g L /\ (t0 <= t <= t2)%Z;
    i_nodup : NoDup (ids w fin);
    i_fin : forall id t, In (id, t) fin -> (t0 <= t <= t2)%Z /\ exists g, In g L /\ g_id g = id /\ smooth_ (g_url g);
    i_serial : ge_serial (w_db w) = ge_serial base;
    i_feeds : ge_feeds (w_db w) = map (after fin) (ge_feeds base);
    i_places : forall h, In h (ge_feeds base) -> places_of (w_db w) (g_id h) =
      match look fin (g_id h) with Some _ => resp_ h (places_of base (g_id h)) | None => places_of base (g_id h) end;
    i_rows : forall r, In r (ge_places (w_db w)) -> In r (ge_places base) \/ exists g, In g (ge_feeds base) /\ g_id g = fst r;
    i_all : w_failed w = false -> forall g, In g L -> In (g_id g) (ids w fin) }.

  Lemma fetch_smooth t g st st' : fetch_geofeed decode space upper py_net t web g st = Some st' -> smooth_ (g_url g).
  Proof.
    unfold fetch_geofeed, smooth. destruct (web (g_url g)) as [lines|c| |]; intros H; (split; [discriminate||(intros X; discriminate)|]); try (intros l E; discriminate).
    intros l E. injection E as <-. intros X. now rewrite X in H.
  Qed.
  Lemma after_id fin h : g_id (after fin h) = g_id h.
  Proof. unfold after. destruct (look fin (g_id h)); [apply res_id|reflexivity]. Qed.
  Lemma after_url fin h : g_url (after fin h) = g_url h.
  Proof. unfold after. destruct (look fin (g_id h)); [apply res_url|reflexivity]. Qed.
  Lemma after_ids fin l : map g_id (map (after fin) l) = map g_id l.
  Proof. rewrite map_map. apply map_ext. apply after_id. Qed.

  Lemma db_first w fin : db_inv w fin -> forall e w', Forall (in_time t0 t2) [e] -> step w e = Some w' -> exists fin', db_inv w' fin'.
  Proof.
    intros V e w' F H. destruct V as [V1 V2 V3 V4 V5 V6 V7 V8 V9]. destruct e as [id t|id|id| |c]; cbn [turn_step] in H.
    - destruct (find (fun g => g_id g =? id) (w_waiting w)) as [g|] eqn:Fi; [|discriminate]. destruct (w_slots w) as [|slots]; [discriminate|].
      pose proof (split_perm N.eqb g_id id g N.eqb_eq (w_waiting w) (nodup_app_l _ _ V3) Fi) as P. apply (find_key N.eqb g_id id g _ N.eqb_eq) in Fi as [Ig Eg].
      assert (Ti : (t0 <= t <= t2)%Z) by (inversion F; assumption).
      destruct (connection (w_pool w) (Some id)) as [[c p]|]; injection H as <-.
      + exists fin. assert (PP : Permutation (ids w fin) (map g_id (without id (w_waiting w)) ++ map rid (w_running w ++ [(g, t)]) ++ map fst fin)).
        { unfold ids. rewrite (Permutation_map g_id P). cbn [map]. rewrite map_app. cbn [map]. change (rid (g, t)) with (g_id g). rewrite Eg.
          fold (without id (w_waiting w)). rewrite <- !app_assoc. cbn [app].
          rewrite (Permutation_middle (map g_id (without id (w_waiting w)))). apply Permutation_app_head.
          apply (Permutation_trans (Permutation_middle _ _ _)). reflexivity. }
        constructor; cbn [w_waiting w_running w_db w_failed]; auto.
        * intros h Ih. apply filter_In in Ih as [Ih _]. auto.
        * intros h u Ih. apply in_app_or in Ih as [Ih|[Ih|[]]]; [auto|]. injection Ih as <- <-. auto.
        * exact (Permutation_NoDup PP V3).
        * intros Fa h Ih. apply (Permutation_in _ PP). auto.
      + exists fin. constructor; cbn [w_waiting w_running w_db w_failed]; auto.
        * intros h Ih. apply filter_In in Ih as [Ih _]. auto.
        * unfold ids in *. cbn [w_waiting w_running]. rewrite (Permutation_map g_id P) in V3. cbn [map app] in V3. now apply NoDup_cons_iff in V3.
        * discriminate.
    - destruct (find (fun x => g_id (fst x) =? id) (w_running w)) as [[g t]|] eqn:Fi; [|discriminate].
      assert (Dr : NoDup (map rid (w_running w))) by exact (nodup_app_l _ _ (nodup_app_r _ _ V3)).
      pose proof (split_perm N.eqb rid id (g, t) N.eqb_eq (w_running w) Dr Fi) as P. apply (find_key N.eqb rid id (g, t) _ N.eqb_eq) in Fi as [Ig Eg].
      change (rid (g, t)) with (g_id g) in Eg. destruct (V2 g t Ig) as [IL Ti].
      change (filter (fun y => negb (rid y =? id)) (w_running w)) with (without_running id (w_running w)) in P.
      assert (PP : Permutation (ids w fin) (map g_id (w_waiting w) ++ map rid (without_running id (w_running w)) ++ id :: map fst fin)).
      { unfold ids. apply Permutation_app_head. rewrite (Permutation_map rid P). cbn [map app]. change (rid (g, t)) with (g_id g). rewrite Eg. apply Permutation_middle. }
      destruct (fetch_geofeed decode space upper py_net t web g (w_db w)) as [db|] eqn:Fe; injection H as <-.
      + exists ((id, t) :: fin).
        assert (Nf : look fin id = None).
        { apply look_none. intros X. apply (Permutation_NoDup PP) in V3. apply nodup_app_r, nodup_app_r in V3. apply NoDup_cons_iff in V3 as [V3 _]. contradiction. }
        assert (Ib : In g (ge_feeds (w_db w))).
        { rewrite V6. apply in_map_iff. exists g. split; [|now apply LI]. unfold after. now rewrite Eg, Nf. }
        assert (Ddb : NoDup (map g_id (ge_feeds (w_db w)))) by (rewrite V6, after_ids; exact D1).
        pose proof (fetch_smooth _ _ _ _ Fe) as Sm.
        destruct (fetch_one decode space upper py_net t web g (w_db w) Ddb Ib Sm) as (st' & E' & Se & Fd & Pl & Ro).
        rewrite E' in Fe. injection Fe as ->.
        assert (Lk : forall x, look ((id, t) :: fin) x = if x =? id then Some t else look fin x).
        { intros x. unfold look. cbn [find fst]. rewrite (N.eqb_sym id x). now destruct (x =? id). }
        constructor; cbn [w_waiting w_running w_db w_failed]; auto.
        * intros h u Ih. apply filter_In in Ih as [Ih _]. auto.
        * unfold ids. cbn [w_waiting w_running map fst]. exact (Permutation_NoDup PP V3).
        * intros i u [X|X]; [|auto]. injection X as <- <-. split; auto. exists g. auto.
        * congruence.
        * rewrite Fd, V6, map_map. apply map_ext. intros h. rewrite after_id, Eg. unfold after. rewrite Lk. destruct (N.eqb_spec (g_id h) id) as [X|X]; [|reflexivity].
          now rewrite X, Nf.
        * intros h Ih. rewrite Pl, Lk, Eg, (V7 h Ih). destruct (N.eqb_spec (g_id h) id) as [X|X]; [|reflexivity].
          rewrite X, Nf. assert (h = g) as -> by (apply (same_id (ge_feeds base)); [exact D1|exact Ih|now apply LI|congruence]). reflexivity.
        * intros r Ir. destruct (Ro r Ir) as [X|X]; [auto|]. right. exists g. split; [now apply LI|now rewrite X].
        * intros Fa h Ih. apply (Permutation_in _ PP). auto.
      + exists fin. constructor; cbn [w_waiting w_running w_db w_failed]; auto.
        * intros h u Ih. apply filter_In in Ih as [Ih _]. auto.
        * unfold ids in *. cbn [w_waiting w_running]. apply (Permutation_NoDup PP) in V3. rewrite app_assoc in V3. apply NoDup_remove_1 in V3. now rewrite <- app_assoc in V3.
        * discriminate.
    - destruct (existsb (N.eqb id) (w_ended w)); [|discriminate]. injection H as <-. exists fin. constructor; auto.
    - destruct (w_failed w && _); [|discriminate]. injection H as <-. exists fin. constructor; cbn [w_waiting w_running w_db w_failed]; auto; try (intros; contradiction).
      + unfold ids in *. cbn [w_waiting w_running map app]. now apply nodup_app_r, nodup_app_r in V3.
      + discriminate.
    - destruct (existsb (N.eqb c) (po_idle (w_pool w))); [|discriminate]. injection H as <-. exists fin. constructor; auto.
  Qed.
  Lemma db_many l : forall w fin w', db_inv w fin -> Forall (in_time t0 t2) l -> steps w l = Some w' -> exists fin', db_inv w' fin'.
  Proof.
    induction l as [|e l IH]; intros w fin w' V F H; cbn [turns] in H; [injection H as <-; now exists fin|].
    inversion F as [|? ? Fe Fl]; subst. destruct (step w e) as [w1|] eqn:E; [|discriminate].
    destruct (db_first w fin V e w1 (Forall_cons _ Fe (Forall_nil _)) E) as [fin1 V1]. exact (IH _ _ _ V1 Fl H).
  Qed.
End Db.

Section All.
  Variable decode : list N -> option cstr.
  Variable space : N -> bool.
  Variable upper : cstr -> cstr.
  Variable py_net : cstr -> option pnet.
  Variable web : cstr -> fetched.
  Notation run_tasks := (update_geofeeds_tasks decode space upper py_net web).
  Notation steps := (turns decode space upper py_net web).
  Notation step := (turn_step decode space upper py_net web).

  (** The state after the feeds have been linked *)
  Definition linked_state (linked : list cstr) (st : geo) : geo := fold_left (fun st url => link url st) linked (unlink linked st).
  Lemma selected_in t0 st g : In g (by_id (filter (older t0 week) (ge_feeds st))) <-> In g (ge_feeds st) /\ older t0 week g = true.
  Proof.
    rewrite <- filter_In. pose proof (by_id_perm (filter (older t0 week) (ge_feeds st))) as P.
    split; apply Permutation_in; [exact P|now apply Permutation_sym].
  Qed.
  Lemma first_inv st t0 t2 : NoDup (map g_id (ge_feeds st)) ->
    db_inv decode space upper py_net web st (by_id (filter (older t0 week) (ge_feeds st))) t0 t2 (first_world t0 st) [].
  Proof.
    intros D. constructor; cbn [first_world w_waiting w_running w_db w_failed]; auto; try (intros; contradiction).
    - unfold ids. cbn [first_world w_waiting w_running map app]. rewrite app_nil_r.
      apply (Permutation_NoDup (l := map g_id (filter (older t0 week) (ge_feeds st)))); [apply Permutation_map, Permutation_sym, by_id_perm|now apply nodup_filter].
    - rewrite (map_ext _ (fun x => x)), map_id; reflexivity.
    - intros _ g Ig. unfold ids. cbn [first_world w_waiting w_running map app]. rewrite app_nil_r. now apply in_map.
  Qed.
  Lemma fetched_result t h ps : smooth decode space upper py_net web (g_url h) ->
    fetched_at decode space upper py_net t (web (g_url h)) (g_status h) (g_updated h) ps (g_status (res t web h)) (g_updated (res t web h)) (resp decode space upper py_net web h ps).
  Proof.
    intros [S1 S2]. unfold res, resp. destruct (web (g_url h)) as [lines|c| |]; cbn [g_status g_updated].
    - destruct (geofeed_rows decode space upper py_net lines) as [rows|] eqn:R; [|now destruct (S2 lines eq_refl)]. apply at_new. now apply rows_entries.
    - destruct (Z.eqb_spec c 404) as [->|N0]; [apply at_gone|]. apply at_kept. left. auto.
    - apply at_kept. right. auto.
    - contradiction.
  Qed.

  (** What is common to both ends *)
  Lemma tasks_end linked st t0 l t2 w : geo_wf st -> Forall (in_time t0 t2) l ->
    steps (first_world t0 (linked_state linked st)) l = Some w -> w_waiting w = [] -> w_running w = [] ->
    geo_wf (w_db w) /\ (forall url, In url linked <-> exists g, In g (ge_feeds (w_db w)) /\ g_url g = url) /\
    forall g, In g (ge_feeds (w_db w)) -> exists s u, before st (g_url g) (g_id g) s u (places_of (linked_state linked st) (g_id g)) /\
      ((g_status g = s /\ g_updated g = u /\ places_of (w_db w) (g_id g) = places_of (linked_state linked st) (g_id g) /\ (w_failed w = false -> age_under t0 WEEK u)) \/
       (~ age_under t0 WEEK u /\ exists t, (t0 <= t <= t2)%Z /\
          fetched_at decode space upper py_net t (web (g_url g)) s u (places_of (linked_state linked st) (g_id g)) (g_status g) (g_updated g) (places_of (w_db w) (g_id g)))).
  Proof.
    intros Wf F H W1 W2.
    destruct (links_linking st linked Wf linked (unlink linked st) (fun _ I1 => I1) (unlink_linking st linked Wf)) as (Lk & C & _).
    fold (linked_state linked st) in *. set (st1 := linked_state linked st) in *. clearbody st1.
    destruct Lk as ((D1 & D2 & Lt & Fk) & Se & Be & _).
    set (L := by_id (filter (older t0 week) (ge_feeds st1))) in *.
    assert (LI : forall g, In g L -> In g (ge_feeds st1)) by (intros g Ig; now apply selected_in in Ig).
    destruct (db_many decode space upper py_net web st1 L t0 t2 D1 LI l _ _ _ (first_inv st1 t0 t2 D1) F H) as [fin V].
    destruct V as [V1 V2 V3 V4 V5 V6 V7 V8 V9].
    assert (Ids : map g_id (ge_feeds (w_db w)) = map g_id (ge_feeds st1)) by (rewrite V6; apply after_ids).
    assert (Urls : map g_url (ge_feeds (w_db w)) = map g_url (ge_feeds st1)).
    { rewrite V6, map_map. apply map_ext. intros h. apply after_url. }
    split; [|split].
    - split; [now rewrite Ids|]. split; [now rewrite Urls|]. split.
      + intros g Ig. apply (in_map g_id) in Ig. rewrite Ids in Ig. apply in_map_iff in Ig as (h & E & Ih). specialize (Lt h Ih). lia.
      + intros r Ir. assert (X : exists g, In g (ge_feeds st1) /\ g_id g = fst r) by (destruct (V8 r Ir) as [X|X]; [exact (Fk r X)|exact X]).
        destruct X as (g & Ig & E). assert (I2 : In (g_id g) (map g_id (ge_feeds (w_db w)))) by (rewrite Ids; now apply in_map).
        apply in_map_iff in I2 as (h & E2 & I2). exists h. split; [exact I2|congruence].
    - intros url. split.
      + intros Iu. destruct (C url Iu) as (g & Ig & E). apply (in_map g_url) in Ig. rewrite <- Urls in Ig. apply in_map_iff in Ig as (h & E2 & Ih). exists h. split; [exact Ih|congruence].
      + intros (g & Ig & E). apply (in_map g_url) in Ig. rewrite Urls in Ig. apply in_map_iff in Ig as (h & E2 & Ih). destruct (Be h Ih) as [Iu _]. congruence.
    - intros g' Ig'. rewrite V6 in Ig'. apply in_map_iff in Ig' as (h & Eg & Ih). destruct (Be h Ih) as [Iu B].
      assert (Ei : g_id g' = g_id h) by (subst g'; apply after_id). assert (Eu : g_url g' = g_url h) by (subst g'; apply after_url).
      exists (g_status h), (g_updated h). rewrite Ei, Eu. split; [exact B|]. rewrite (V7 h Ih).
      unfold after in Eg. destruct (look fin (g_id h)) as [t|] eqn:Lo.
      + right. apply look_in in Lo. destruct (V4 _ _ Lo) as (Ti & g & IL & E & Sm).
        assert (g = h) as -> by (apply (same_id (ge_feeds st1)); auto). apply selected_in in IL as [_ O].
        split; [now apply older_no in O|]. exists t. split; [exact Ti|]. subst g'. now apply fetched_result.
      + left. subst g'. split; [reflexivity|]. split; [reflexivity|]. split; [reflexivity|]. intros Fa. apply older_iff.
        destruct (older t0 WEEK h) eqn:O; [exfalso|reflexivity].
        assert (IL : In h L) by (apply selected_in; auto). specialize (V9 Fa h IL). unfold ids in V9. rewrite W1, W2 in V9. cbn [map app] in V9.
        apply look_some in V9 as [t X]. congruence.
  Qed.

  Lemma run_inv linked st t0 l t2 st' b : run_tasks linked st t0 l t2 = Some (st', b) ->
    exists w, steps (first_world t0 (linked_state linked st)) l = Some w /\ w_waiting w = [] /\ w_running w = [] /\ w_failed w = negb b /\ st' = (if b then expire t2 (w_db w) else w_db w).
  Proof.
    unfold update_geofeeds_tasks. fold (linked_state linked st). destruct (steps _ l) as [w|] eqn:E; [|discriminate].
    destruct (w_waiting w) eqn:W1; [|discriminate]. destruct (w_running w) eqn:W2; [|discriminate].
    destruct (w_failed w) eqn:W3; intros H; injection H as <- <-; exists w; auto.
  Qed.
  Lemma tasks_updated linked st t0 l t2 st' : geo_wf st -> Forall (in_time t0 t2) l -> (t0 <= t2 < t0 + WEEK)%Z ->
    run_tasks linked st t0 l t2 = Some (st', true) ->
    geo_wf st' /\ (forall url, In url linked <-> exists g, In g (ge_feeds st') /\ g_url g = url) /\
    forall g, In g (ge_feeds st') -> exists s u ps, before st (g_url g) (g_id g) s u ps /\
      outcome_at decode space upper py_net t0 t2 (web (g_url g)) s u ps (g_status g) (g_updated g) (places_of st' (g_id g)).
  Proof.
    intros Wf F Ti H. apply run_inv in H as (w & H & W1 & W2 & W3 & ->). cbn [negb] in W3.
    destruct (tasks_end linked st t0 l t2 w Wf F H W1 W2) as ((A1 & A2 & A3 & A4) & B & C).
    split; [|split].
    - split; [exact A1|]. split; [exact A2|]. split; [exact A3|]. cbn [expire ge_places ge_feeds]. intros r Ir. apply filter_In in Ir as [Ir _]. auto.
    - exact B.
    - intros g Ig. change (In g (ge_feeds (w_db w))) in Ig. destruct (C g Ig) as (s & u & Bf & X). exists s, u, (places_of (linked_state linked st) (g_id g)). split; [exact Bf|].
      rewrite (expire_places t2 (w_db w) g A1 Ig). assert (W : (2 * week = 2 * WEEK)%Z) by reflexivity. rewrite W.
      destruct X as [(E1 & E2 & E3 & E4)|(O & t & Tt & Fa)].
      + left. specialize (E4 W3). split; [exact E4|]. split; [exact E1|]. split; [exact E2|].
        replace (older t2 (2 * WEEK) g) with false; [exact E3|]. symmetry. apply older_iff. rewrite E2. unfold age_under in *. destruct u; [lia|contradiction].
      + right. split; [exact O|]. exists t, (places_of (w_db w) (g_id g)). split; [exact Tt|]. split; [exact Fa|]. split; intros Ag.
        * apply older_iff in Ag. now rewrite Ag.
        * apply older_no in Ag. now rewrite Ag.
  Qed.
  Lemma tasks_failed linked st t0 l t2 st' : geo_wf st -> Forall (in_time t0 t2) l ->
    run_tasks linked st t0 l t2 = Some (st', false) ->
    geo_wf st' /\ (forall url, In url linked <-> exists g, In g (ge_feeds st') /\ g_url g = url) /\
    forall g, In g (ge_feeds st') -> exists s u ps, before st (g_url g) (g_id g) s u ps /\
      all_or_nothing decode space upper py_net t0 t2 (web (g_url g)) s u ps (g_status g) (g_updated g) (places_of st' (g_id g)).
  Proof.
    intros Wf F H. apply run_inv in H as (w & H & W1 & W2 & W3 & ->).
    destruct (tasks_end linked st t0 l t2 w Wf F H W1 W2) as (A & B & C). split; [exact A|]. split; [exact B|].
    intros g Ig. destruct (C g Ig) as (s & u & Bf & X). exists s, u, (places_of (linked_state linked st) (g_id g)). split; [exact Bf|].
    destruct X as [(E1 & E2 & E3 & _)|(O & t & Tt & Fa)].
    - left. auto.
    - right. split; [exact O|]. exists t. auto.
  Qed.

  (** ** Connections *)
  Record pool_inv (w : world) : Prop := mkPoolInv {
    p_nodup : NoDup (map g_id (w_waiting w) ++ map rid (w_running w) ++ w_ended w);
    p_slots : (w_slots w + List.length (w_running w) = 32)%nat;
    p_unshared : unshared (w_pool w);
    p_main : In (None, 0) (po_used (w_pool w));
    p_used : forall t c, In (t, c) (po_used (w_pool w)) -> t = None \/ exists id, t = Some id /\ In id (map rid (w_running w) ++ w_ended w);
    p_running : forall id, In id (map rid (w_running w)) -> exists c, In (Some id, c) (po_used (w_pool w));
    p_opened : forall c, In c (map snd (po_used (w_pool w)) ++ po_idle (w_pool w)) -> c < po_opened (w_pool w) }.

  Lemma pool_first t0 st : NoDup (map g_id (ge_feeds st)) -> pool_inv (first_world t0 st).
  Proof.
    intros D. constructor; cbn [first_world w_waiting w_running w_ended w_slots w_pool po_used po_idle po_opened map app fst snd List.length].
    - rewrite app_nil_r. apply (Permutation_NoDup (l := map g_id (filter (older t0 week) (ge_feeds st)))); [apply Permutation_map, Permutation_sym, by_id_perm|now apply nodup_filter].
    - reflexivity.
    - split; cbn [po_used po_idle map fst snd app]; repeat constructor; intros [].
    - now left.
    - intros t c [H|[]]. injection H as <- <-. now left.
    - intros id [].
    - intros c [<-|[]]. reflexivity.
  Qed.
  Lemma pool_step w e w' : pool_inv w -> step w e = Some w' -> pool_inv w'.
  Proof.
    intros V H. destruct V as [V1 V2 [V3 V3'] V4 V5 V6 V7]. destruct e as [id t|id|id| |c]; cbn [turn_step] in H.
    - destruct (find (fun g => g_id g =? id) (w_waiting w)) as [g|] eqn:Fi; [|discriminate]. destruct (w_slots w) as [|slots] eqn:Sl; [discriminate|].
      pose proof (split_perm N.eqb g_id id g N.eqb_eq (w_waiting w) (nodup_app_l _ _ V1) Fi) as P. apply (find_key N.eqb g_id id g _ N.eqb_eq) in Fi as [Ig Eg].
      fold (without id (w_waiting w)) in P.
      assert (Ni : ~ In id (map rid (w_running w) ++ w_ended w)). { intros X. apply (nodup_disjoint _ _ id V1); [|exact X]. rewrite <- Eg. now apply in_map. }
      assert (Nu : ~ In (Some id) (map fst (po_used (w_pool w)))).
      { intros X. apply in_map_iff in X as ([u c] & E & X). cbn [fst] in E. subst u. destruct (V5 _ _ X) as [E|(i & E & I1)]; [discriminate|]. injection E as <-. contradiction. }
      assert (PP : Permutation (map g_id (w_waiting w) ++ map rid (w_running w) ++ w_ended w) (id :: map g_id (without id (w_waiting w)) ++ map rid (w_running w) ++ w_ended w)).
      { rewrite (Permutation_map g_id P). cbn [map app]. now rewrite Eg. }
      assert (D' : NoDup (map g_id (without id (w_waiting w)) ++ map rid (w_running w ++ [(g, t)]) ++ w_ended w)).
      { apply (Permutation_NoDup (l := map g_id (w_waiting w) ++ map rid (w_running w) ++ w_ended w)); [|exact V1]. rewrite PP, map_app. cbn [map]. change (rid (g, t)) with (g_id g). rewrite Eg.
        rewrite <- !app_assoc. cbn [app]. rewrite (Permutation_middle (map g_id (without id (w_waiting w)))). apply Permutation_app_head.
        apply (Permutation_trans (Permutation_middle _ _ _)). reflexivity. }
      assert (U' : forall c, forall u c0, In (u, c0) ((Some id, c) :: po_used (w_pool w)) -> u = None \/ exists i, u = Some i /\ In i (map rid (w_running w ++ [(g, t)]) ++ w_ended w)).
      { intros c u c0 [X|X].
        - injection X as <- <-. right. exists id. split; auto. apply in_or_app. left. rewrite map_app. apply in_or_app. right. left. exact Eg.
        - destruct (V5 _ _ X) as [X'|(i & -> & Ii)]; [now left|]. right. exists i. split; auto. rewrite map_app. apply in_app_or in Ii as [Ii|Ii]; apply in_or_app; [left; apply in_or_app; now left|now right]. }
      assert (R' : forall c i, In i (map rid (w_running w ++ [(g, t)])) -> exists c0, In (Some i, c0) ((Some id, c) :: po_used (w_pool w))).
      { intros c i Ii. rewrite map_app in Ii. apply in_app_or in Ii as [Ii|[Ii|[]]].
        - destruct (V6 i Ii) as [c0 X]. exists c0. now right.
        - change (rid (g, t)) with (g_id g) in Ii. exists c. left. congruence. }
      unfold connection, find_connection in H. rewrite (find_none_key task_eqb fst (Some id) (po_used (w_pool w)) task_eqb_eq Nu) in H. cbn [option_map] in H.
      destruct (po_idle (w_pool w)) as [|c idle] eqn:Id.
      + destruct (List.length (po_used (w_pool w)) <? max_size)%nat; injection H as <-.
        * rewrite app_nil_r in *. constructor; cbn [w_waiting w_running w_ended w_slots w_pool po_used po_idle po_opened]; auto; try exact (U' _); try exact (R' _).
          -- rewrite app_length. cbn [List.length]. lia.
          -- split; cbn [po_used po_idle map fst snd]; rewrite ?app_nil_r; constructor; auto. intros X. specialize (V7 _ X). lia.
          -- now right.
          -- intros x X. rewrite app_nil_r in X. cbn [map snd] in X. destruct X as [<-|X]; [lia|]. specialize (V7 _ X). lia.
        * constructor; cbn [w_waiting w_running w_ended w_slots w_pool]; auto.
          -- apply (Permutation_NoDup (l := map g_id (w_waiting w) ++ map rid (w_running w) ++ w_ended w)); [|exact V1]. rewrite PP, !app_assoc. apply Permutation_cons_append.
          -- split; [exact V3|]. now rewrite Id.
          -- intros u c X. destruct (V5 _ _ X) as [X'|(i & -> & Ii)]; [now left|]. right. exists i. split; auto. rewrite app_assoc. apply in_or_app. now left.
          -- intros c X. rewrite Id in X. now apply V7.
      + injection H as <-. constructor; cbn [w_waiting w_running w_ended w_slots w_pool po_used po_idle po_opened]; auto; try exact (U' _); try exact (R' _).
        * rewrite app_length. cbn [List.length]. lia.
        * split; cbn [po_used po_idle map fst snd]; [constructor; auto|]. cbn [app].
          apply (Permutation_NoDup (l := map snd (po_used (w_pool w)) ++ c :: idle)); [|exact V3']. apply Permutation_sym, Permutation_middle.
        * now right.
        * intros x X. apply V7. cbn [map snd app] in X. apply in_or_app. destruct X as [<-|X]; [right; now left|]. apply in_app_or in X as [X|X]; [now left|right; now right].
    - destruct (find (fun x => g_id (fst x) =? id) (w_running w)) as [[g t]|] eqn:Fi; [|discriminate].
      assert (Dr : NoDup (map rid (w_running w))) by exact (nodup_app_l _ _ (nodup_app_r _ _ V1)).
      pose proof (split_perm N.eqb rid id (g, t) N.eqb_eq (w_running w) Dr Fi) as P. apply (find_key N.eqb rid id (g, t) _ N.eqb_eq) in Fi as [Ig Eg].
      change (filter (fun y => negb (rid y =? id)) (w_running w)) with (without_running id (w_running w)) in P. change (rid (g, t)) with (g_id g) in Eg.
      assert (Pr : Permutation (map rid (w_running w)) (id :: map rid (without_running id (w_running w)))).
      { rewrite (Permutation_map rid P). cbn [map]. change (rid (g, t)) with (g_id g). now rewrite Eg. }
      assert (G : forall db f, pool_inv (mkWorld db (w_waiting w) (without_running id (w_running w)) (w_ended w ++ [id]) (S (w_slots w)) (w_pool w) f)).
      { intros db f. constructor; cbn [w_waiting w_running w_ended w_slots w_pool]; auto.
        - apply (Permutation_NoDup (l := map g_id (w_waiting w) ++ map rid (w_running w) ++ w_ended w)); [|exact V1]. apply Permutation_app_head. rewrite Pr, app_assoc. apply Permutation_cons_append.
        - apply Permutation_length in P. cbn [List.length] in P. lia.
        - split; auto.
        - intros u c X. destruct (V5 _ _ X) as [X'|(i & -> & Ii)]; [now left|]. right. exists i. split; auto.
          apply in_app_or in Ii as [Ii|Ii].
          + apply (Permutation_in _ Pr) in Ii as [<-|Ii]; apply in_or_app; [right; apply in_or_app; right; now left|now left].
          + apply in_or_app. right. apply in_or_app. now left.
        - intros i Ii. apply V6. apply (Permutation_in _ (Permutation_sym Pr)). now right. }
      destruct (fetch_geofeed decode space upper py_net t web g (w_db w)) as [db|]; injection H as <-; apply G.
    - destruct (existsb (N.eqb id) (w_ended w)) eqn:Ex; [|discriminate]. injection H as <-. apply existsb_exists in Ex as (x & Ix & Ex). apply N.eqb_eq in Ex. subst x.
      assert (De : NoDup (map (fun x => x) (w_ended w))) by (rewrite map_id; exact (nodup_app_r _ _ (nodup_app_r _ _ V1))).
      assert (Fe : find (fun x => x =? id) (w_ended w) = Some id).
      { destruct (find (fun x => x =? id) (w_ended w)) as [y|] eqn:Fy; [apply find_some in Fy as [_ Fy]; apply N.eqb_eq in Fy; now subst|].
        pose proof (find_none _ _ Fy id Ix) as X. cbn in X. lia. }
      pose proof (split_perm N.eqb (fun x => x) id id N.eqb_eq (w_ended w) De Fe) as P.
      assert (Nr : ~ In id (map rid (w_running w))). { intros X. exact (nodup_disjoint _ _ id (nodup_app_r _ _ V1) X Ix). }
      assert (De' : NoDup (map g_id (w_waiting w) ++ map rid (w_running w) ++ filter (fun x => negb (x =? id)) (w_ended w))).
      { apply (Permutation_NoDup (l' := map g_id (w_waiting w) ++ map rid (w_running w) ++ id :: filter (fun x => negb (x =? id)) (w_ended w))) in V1.
        - rewrite app_assoc in V1. apply NoDup_remove_1 in V1. now rewrite <- app_assoc in V1.
        - do 2 apply Permutation_app_head. exact P. }
      unfold release_connection, find_connection. destruct (find (fun x => task_eqb (fst x) (Some id)) (po_used (w_pool w))) as [[u c]|] eqn:Fu; cbn [option_map].
      + pose proof (split_perm task_eqb fst (Some id) (u, c) task_eqb_eq (po_used (w_pool w)) V3 Fu) as Q. apply (find_key task_eqb fst (Some id) (u, c) _ task_eqb_eq) in Fu as [Iu Eu].
        cbn [fst] in Eu. subst u.
        assert (Qi : forall u c0, In (u, c0) (po_used (w_pool w)) -> u <> Some id -> In (u, c0) (filter (fun y => negb (task_eqb (fst y) (Some id))) (po_used (w_pool w)))).
        { intros u c0 X N0. apply filter_In. split; auto. cbn [fst]. destruct (task_eqb u (Some id)) eqn:E; auto. apply task_eqb_eq in E. contradiction. }
        constructor; cbn [w_waiting w_running w_ended w_slots w_pool po_used po_idle po_opened]; auto.
        * split; cbn [po_used po_idle].
          -- rewrite (Permutation_map fst Q) in V3. cbn [map] in V3. now apply NoDup_cons_iff in V3.
          -- rewrite (Permutation_map snd Q) in V3'. cbn [map snd app] in V3'.
             refine (Permutation_NoDup _ V3'). rewrite app_assoc, Permutation_cons_append. reflexivity.
        * apply Qi; [exact V4|discriminate].
        * intros u c0 X. apply filter_In in X as [X N0]. cbn [fst] in N0. destruct (V5 _ _ X) as [X'|(i & -> & Ii)]; [now left|]. right. exists i. split; auto.
          apply in_app_or in Ii as [Ii|Ii]; apply in_or_app; [now left|right]. apply filter_In. now split.
        * intros i Ii. destruct (V6 i Ii) as [c0 X]. exists c0. apply Qi; auto. intros E. injection E as ->. contradiction.
        * intros x X. apply V7. apply in_app_or in X as [X|X].
          -- apply in_or_app. left. apply in_map_iff in X as (y & <- & X). apply filter_In in X as [X _]. now apply in_map.
          -- apply in_app_or in X as [X|[<-|[]]]; apply in_or_app; [now right|left]. apply in_map_iff. now exists (Some id, c).
      + constructor; cbn [w_waiting w_running w_ended w_slots w_pool]; auto.
        * split; auto.
        * intros u c X. destruct (V5 _ _ X) as [X'|(i & -> & Ii)]; [now left|]. right. exists i. split; auto.
          apply in_app_or in Ii as [Ii|Ii]; apply in_or_app; [now left|right]. apply filter_In. split; auto.
          pose proof (find_none _ _ Fu _ X) as E. cbn [fst task_eqb] in E. now rewrite E.
    - destruct (w_failed w && _); [|discriminate]. injection H as <-. constructor; cbn [w_waiting w_running w_ended w_slots w_pool map app]; auto.
      + apply nodup_app_r in V1. refine (Permutation_NoDup _ V1). change (map (fun x => g_id (fst x)) (w_running w)) with (map rid (w_running w)). apply Permutation_app_comm.
      + cbn [List.length]. lia.
      + split; auto.
      + intros u c X. destruct (V5 _ _ X) as [X'|(i & -> & Ii)]; [now left|]. right. exists i. split; auto. change (map (fun x => g_id (fst x)) (w_running w)) with (map rid (w_running w)).
        apply in_app_or in Ii as [Ii|Ii]; apply in_or_app; [now right|now left].
      + intros i [].
    - destruct (existsb (N.eqb c) (po_idle (w_pool w))); [|discriminate]. injection H as <-.
      constructor; cbn [w_waiting w_running w_ended w_slots w_pool po_used po_idle po_opened]; auto.
      + split; cbn [po_used po_idle]; [exact V3|]. clear - V3'. revert V3'. generalize (map snd (po_used (w_pool w))) as a. generalize (po_idle (w_pool w)) as b.
        intros b a. induction a as [|x a IH]; cbn [app]; intros D.
        * now apply NoDup_filter.
        * apply NoDup_cons_iff in D as [D1 D2]. constructor; [|auto]. intros X. apply D1. apply in_app_or in X as [X|X]; apply in_or_app; [now left|right]. now apply filter_In in X.
      + intros x X. apply V7. apply in_app_or in X as [X|X]; apply in_or_app; [now left|right]. now apply filter_In in X.
  Qed.
  Lemma pool_steps l : forall w w', pool_inv w -> steps w l = Some w' -> pool_inv w'.
  Proof.
    induction l as [|e l IH]; intros w w' V H; cbn [turns] in H; [now injection H as <-|]. destruct (step w e) as [w1|] eqn:E; [|discriminate].
    exact (IH _ _ (pool_step _ _ _ V E) H).
  Qed.
  Lemma used_length w : pool_inv w -> (List.length (po_used (w_pool w)) <= 1 + List.length (w_running w) + List.length (w_ended w))%nat.
  Proof.
    intros V. pose proof (proj1 (p_unshared w V)) as D.
    rewrite <- (map_length fst (po_used (w_pool w))).
    replace (1 + List.length (w_running w) + List.length (w_ended w))%nat with (List.length ((None : task) :: map Some (map rid (w_running w) ++ w_ended w))).
    2:{ cbn [List.length]. rewrite map_length, app_length, map_length. lia. }
    apply NoDup_incl_length; [exact D|]. intros u Iu. apply in_map_iff in Iu as ([u' c] & <- & Iu). cbn [fst].
    destruct (p_used w V _ _ Iu) as [->|(i & -> & Ii)]; [now left|]. right. now apply in_map.
  Qed.
  Lemma all_returned w : pool_inv w -> w_running w = [] -> w_ended w = [] -> po_used (w_pool w) = [(None, 0)].
  Proof.
    intros V R E. pose proof (used_length w V) as Le. rewrite R, E in Le. cbn [List.length] in Le. pose proof (p_main w V) as M.
    destruct (po_used (w_pool w)) as [|x [|y l]]; [destruct M| |cbn [List.length] in Le; lia]. destruct M as [->|[]]. reflexivity.
  Qed.

  (** ** Turns *)
  Definition measure (w : world) : nat := (3 * List.length (w_waiting w) + 2 * List.length (w_running w) + List.length (w_ended w))%nat.
  Lemma without_less {A} (f : A -> N) id x l : find (fun y => f y =? id) l = Some x -> (List.length (filter (fun y => negb (f y =? id)%N) l) < List.length l)%nat.
  Proof.
    assert (G : forall l : list A, (List.length (filter (fun y => negb (f y =? id)%N) l) <= List.length l)%nat).
    { induction l0 as [|a l0 IH]; auto. cbn [filter]. destruct (f a =? id); cbn [negb List.length]; lia. }
    induction l as [|a l IH]; intros H; [discriminate|]. cbn [find] in H. cbn [filter]. destruct (f a =? id); cbn [negb List.length].
    - specialize (G l). lia.
    - specialize (IH H). lia.
  Qed.
  Lemma step_measure w e w' : step w e = Some w' -> (busy e -> measure w' < measure w)%nat /\ (~ busy e -> measure w' = measure w).
  Proof.
    unfold measure. intros H. destruct e as [id t|id|id| |c]; cbn [turn_step] in H; cbn [busy]; split; intros B; try contradiction; try (now destruct B).
    - destruct (find (fun g => g_id g =? id) (w_waiting w)) as [g|] eqn:Fi; [|discriminate]. apply (without_less g_id) in Fi. fold (without id (w_waiting w)) in Fi.
      destruct (w_slots w); [discriminate|]. destruct (connection (w_pool w) (Some id)) as [[c p]|]; injection H as <-; cbn [w_waiting w_running w_ended];
      rewrite app_length; cbn [List.length]; lia.
    - destruct (find (fun x => g_id (fst x) =? id) (w_running w)) as [[g t]|] eqn:Fi; [|discriminate]. apply (without_less rid) in Fi. change (filter (fun y => negb (rid y =? id)) (w_running w)) with (without_running id (w_running w)) in Fi.
      destruct (fetch_geofeed decode space upper py_net t web g (w_db w)) as [db|]; injection H as <-; cbn [w_waiting w_running w_ended]; rewrite app_length; cbn [List.length]; lia.
    - destruct (existsb (N.eqb id) (w_ended w)) eqn:Ex; [|discriminate]. injection H as <-. cbn [w_waiting w_running w_ended].
      apply existsb_exists in Ex as (x & Ix & Ex). apply N.eqb_eq in Ex. subst x.
      destruct (find (fun x => x =? id) (w_ended w)) as [y|] eqn:Fy; [|pose proof (find_none _ _ Fy id Ix) as X; cbn in X; lia].
      apply (without_less (fun x => x)) in Fy. lia.
    - destruct (w_failed w && _) eqn:E; [|discriminate]. injection H as <-. apply andb_true_iff in E as [_ E]. cbn [w_waiting w_running w_ended List.length].
      rewrite app_length, map_length. lia.
    - destruct (existsb (N.eqb c) (po_idle (w_pool w))); [|discriminate]. injection H as <-. reflexivity.
  Qed.
  Lemma busy_dec e : {busy e} + {~ busy e}.
  Proof. destruct e; cbn [busy]; auto. Qed.
  Definition is_busy (e : turn) : bool := if busy_dec e then true else false.
  Lemma steps_measure l : forall w w', steps w l = Some w' -> (List.length (filter is_busy l) + measure w' <= measure w)%nat.
  Proof.
    induction l as [|e l IH]; intros w w' H; cbn [turns] in H; [injection H as <-; cbn; lia|]. destruct (step w e) as [w1|] eqn:E; [|discriminate].
    specialize (IH _ _ H). apply step_measure in E as [E1 E2]. cbn [filter]. unfold is_busy at 1. destruct (busy_dec e) as [B|B]; cbn [List.length]; [specialize (E1 B)|specialize (E2 B)]; lia.
  Qed.
  Lemma first_measure t0 st : (measure (first_world t0 st) <= 3 * List.length (ge_feeds st))%nat.
  Proof.
    unfold measure. cbn [first_world w_waiting w_running w_ended List.length]. rewrite (Permutation_length (by_id_perm _)).
    assert (X : forall l, (List.length (filter (older t0 week) l) <= List.length l)%nat) by (induction l as [|a l IH]; auto; cbn [filter]; destruct (older t0 week a); cbn [List.length]; lia).
    specialize (X (ge_feeds st)). lia.
  Qed.
  (** There is always a next turn. *)
  Lemma next_turn w t : pool_inv w -> w_waiting w <> [] \/ w_running w <> [] -> exists e w', busy e /\ in_time t t e /\ step w e = Some w'.
  Proof.
    intros V H. destruct (w_running w) as [|[g u] r] eqn:R.
    - destruct H as [H|H]; [|contradiction]. destruct (w_waiting w) as [|g ws] eqn:W; [contradiction|].
      pose proof (p_slots w V) as Sl. rewrite R in Sl. cbn [List.length] in Sl.
      exists (Enter (g_id g) t). cbn [turn_step]. rewrite W. cbn [find]. rewrite N.eqb_refl. destruct (w_slots w) as [|s]; [lia|].
      destruct (connection (w_pool w) (Some (g_id g))) as [[c p]|]; eexists; (split; [exact Logic.I|split; [cbn; lia|reflexivity]]).
    - exists (Answered (g_id g)). cbn [turn_step]. rewrite R. cbn [find fst]. rewrite N.eqb_refl.
      destruct (fetch_geofeed decode space upper py_net u web g (w_db w)); eexists; (split; [exact Logic.I|split; [exact Logic.I|reflexivity]]).
  Qed.

  (** ** No failures *)
  Lemma quiet_step base L t0 t2 w fin e w' : (forall s, ~ In 0 s -> ~ In 0 (upper s)) -> (forall g, In g L -> quiet decode (web (g_url g))) ->
    db_inv decode space upper py_net web base L t0 t2 w fin -> pool_inv w -> (List.length (w_ended w) < 479)%nat ->
    w_failed w = false -> step w e = Some w' -> w_failed w' = false.
  Proof.
    intros Up Q V P Le F H. destruct e as [id t|id|id| |c]; cbn [turn_step] in H.
    - destruct (find (fun g => g_id g =? id) (w_waiting w)) as [g|]; [|discriminate]. destruct (w_slots w) as [|s] eqn:Sl; [discriminate|].
      pose proof (used_length w P) as U. pose proof (p_slots w P) as Sr. rewrite Sl in Sr.
      unfold connection in H. destruct (find_connection (w_pool w) (Some id)); [injection H as <-; exact F|].
      destruct (po_idle (w_pool w)); [|injection H as <-; exact F]. unfold max_size in H. replace (List.length (po_used (w_pool w)) <? 512)%nat with true in H by lia. injection H as <-. exact F.
    - destruct (find (fun x => g_id (fst x) =? id) (w_running w)) as [[g t]|] eqn:Fi; [|discriminate]. apply find_some in Fi as [Ig _].
      destruct (i_running _ _ _ _ _ _ _ _ _ _ _ V g t Ig) as [IL _]. destruct (Q g IL) as [Q1 Q2].
      assert (X : fetch_geofeed decode space upper py_net t web g (w_db w) <> None).
      { unfold fetch_geofeed. destruct (web (g_url g)) as [lines|k| |] eqn:W; try discriminate; [|contradiction].
        pose proof (rows_quiet decode space upper py_net Up lines (Q2 lines eq_refl)) as R. destruct (geofeed_rows decode space upper py_net lines); [discriminate|contradiction]. }
      destruct (fetch_geofeed decode space upper py_net t web g (w_db w)); [|contradiction]. injection H as <-. exact F.
    - destruct (existsb (N.eqb id) (w_ended w)); [|discriminate]. injection H as <-. exact F.
    - rewrite F in H. discriminate.
    - destruct (existsb (N.eqb c) (po_idle (w_pool w))); [|discriminate]. injection H as <-. exact F.
  Qed.
  Lemma quiet_steps base L t0 t2 : (forall s, ~ In 0 s -> ~ In 0 (upper s)) -> (forall g, In g L -> quiet decode (web (g_url g))) ->
    NoDup (map g_id (ge_feeds base)) -> (forall g, In g L -> In g (ge_feeds base)) ->
    forall l w fin w', Forall (in_time t0 t2) l -> db_inv decode space upper py_net web base L t0 t2 w fin -> pool_inv w ->
    (forall l1 l2 w1, l = l1 ++ l2 -> steps w l1 = Some w1 -> (List.length (w_ended w1) < 479)%nat) ->
    w_failed w = false -> steps w l = Some w' -> w_failed w' = false.
  Proof.
    intros Up Q D LI. induction l as [|e l IH]; intros w fin w' Ti V P Le F H; cbn [turns] in H; [injection H as <-; exact F|].
    destruct (step w e) as [w1|] eqn:E; [|discriminate]. inversion Ti as [|? ? Te Tl]; subst.
    destruct (db_first decode space upper py_net web base L t0 t2 D LI w fin V e w1 (Forall_cons _ Te (Forall_nil _)) E) as [fin1 V1].
    apply (IH w1 fin1 w' Tl V1 (pool_step _ _ _ P E)); [| |exact H].
    - intros l1 l2 w2 -> X. apply (Le (e :: l1) l2 w2 eq_refl). cbn [turns]. now rewrite E.
    - exact (quiet_step base L t0 t2 w fin e w1 Up Q V P (Le [] (e :: l) w eq_refl eq_refl) F E).
  Qed.
  Lemma tasks_quiet linked st t0 l t2 st' b : geo_wf st -> (forall s, ~ In 0 s -> ~ In 0 (upper s)) -> (forall url, In url linked -> quiet decode (web url)) ->
    Forall (in_time t0 t2) l ->
    (forall l1 l2 w, l = l1 ++ l2 -> steps (first_world t0 (linked_state linked st)) l1 = Some w -> (List.length (w_ended w) < 479)%nat) ->
    run_tasks linked st t0 l t2 = Some (st', b) -> b = true.
  Proof.
    intros Wf Up Q F Le H. apply run_inv in H as (w & H & _ & _ & W3 & _).
    destruct (links_linking st linked Wf linked (unlink linked st) (fun _ I1 => I1) (unlink_linking st linked Wf)) as (Lk & _ & _).
    fold (linked_state linked st) in Lk. destruct Lk as ((D1 & D2 & Lt & Fk) & Se & Be & _).
    assert (X : w_failed w = false).
    { apply (quiet_steps (linked_state linked st) (by_id (filter (older t0 week) (ge_feeds (linked_state linked st)))) t0 t2) with (l := l) (w := first_world t0 (linked_state linked st)) (fin := []); auto.
      - intros g Ig. apply selected_in in Ig as [Ig _]. destruct (Be g Ig) as [Iu _]. auto.
      - intros g Ig. now apply selected_in in Ig.
      - now apply first_inv.
      - now apply pool_first. }
    rewrite X in W3. now destruct b.
  Qed.
  Lemma reach_pool linked st t0 l w : geo_wf st -> steps (first_world t0 (linked_state linked st)) l = Some w -> pool_inv w.
  Proof.
    intros Wf H. destruct (links_linking st linked Wf linked (unlink linked st) (fun _ I1 => I1) (unlink_linking st linked Wf)) as (Lk & _ & _).
    fold (linked_state linked st) in Lk. destruct Lk as ((D1 & _) & _). exact (pool_steps l _ _ (pool_first t0 _ D1) H).
  Qed.
End All.
Lemma slots_bound w : pool_inv w -> (List.length (w_running w) <= 32)%nat.
Proof. intros V. pose proof (p_slots w V). lia. Qed.
Lemma turns_bound decode space upper py_net web t0 st l w : turns decode space upper py_net web (first_world t0 st) l = Some w ->
  (List.length (filter is_busy l) <= 3 * List.length (ge_feeds st))%nat.
Proof. intros H. apply steps_measure in H. pose proof (first_measure t0 st). lia. Qed.
Lemma running_connected w g t : pool_inv w -> In (g, t) (w_running w) -> exists c, In (Some (g_id g), c) (po_used (w_pool w)).
Proof. intros V I1. apply (p_running w V). exact (in_map rid _ _ I1). Qed.
