(** Proofs about geofeeds *)
From Coq Require Import String.
From Coq Require Import NArith ZArith List Bool Lia ZifyBool ZifyNat ZifyN Permutation.
From Verif Require Import Base ModelCountryCode ModelStringPool SpecText LemmasStringPool ModelImport SpecImport LemmasImport
  LemmasImportTable ModelGeofeed SpecGeofeed.
Import ListNotations.
Open Scope N_scope.

(** ** White space *)
Section Strip.
  Variable space : N -> bool.
  Lemma rstrip_spaces : forall b, spaces space b -> rstrip space b = [].
  Proof. intros b F. induction F as [|c b C F IH]; cbn [rstrip]; [reflexivity|]. now rewrite IH, C. Qed.
  Lemma rstrip_end : forall t b, spaces space b -> (forall x c, t = x ++ [c] -> space c = false) -> rstrip space (t ++ b) = t.
  Proof.
    intros t b B. induction t as [|c t IH]; intros H; cbn [app rstrip]; [now apply rstrip_spaces|].
    destruct t as [|d t].
    - cbn [app]. rewrite (rstrip_spaces b B). now rewrite (H [] c eq_refl).
    - rewrite IH; [reflexivity|]. intros x e E. apply (H (c :: x) e). now rewrite E.
  Qed.
  Lemma rstrip_spec : forall s, end_trimmed space s (rstrip space s).
  Proof.
    induction s as [|c s IH]; cbn [rstrip].
    - exists []. split; [reflexivity|]. split; [constructor|]. intros [|? ?] ? E; discriminate.
    - destruct IH as (b & E & B & L). destruct (rstrip space s) as [|d r] eqn:R.
      + cbn [app] in E. subst b. destruct (space c) eqn:C.
        * exists (c :: s). split; [reflexivity|]. split; [now constructor|]. intros [|? ?] ? X; discriminate.
        * exists s. split; [reflexivity|]. split; [exact B|]. intros [|y x] e X; cbn [app] in X; [congruence|]. destruct x; discriminate.
      + exists b. split; [rewrite E at 1; reflexivity|]. split; [exact B|]. intros [|y x] e X; cbn [app] in X; [discriminate|].
        injection X as _ X. exact (L x e X).
  Qed.
  Lemma rstrip_iff : forall s t, rstrip space s = t <-> end_trimmed space s t.
  Proof. intros s t. split; [intros <-; apply rstrip_spec|]. intros (b & -> & B & L). now apply rstrip_end. Qed.
  Lemma lstrip_start : forall a t, spaces space a -> (forall c x, t = c :: x -> space c = false) -> lstrip space (a ++ t) = t.
  Proof.
    intros a t F H. induction F as [|c a C F IH]; cbn [app lstrip].
    - destruct t as [|c t]; [reflexivity|]. cbn [lstrip]. now rewrite (H c t eq_refl).
    - now rewrite C.
  Qed.
  Lemma lstrip_spec : forall s, exists a, s = a ++ lstrip space s /\ spaces space a /\ forall c x, lstrip space s = c :: x -> space c = false.
  Proof.
    induction s as [|c s (a & E & A & L)]; cbn [lstrip].
    - exists []. split; [reflexivity|]. split; [constructor|]. discriminate.
    - destruct (space c) eqn:C.
      + exists (c :: a). split; [cbn [app]; now f_equal|]. split; [now constructor|exact L].
      + exists []. split; [reflexivity|]. split; [constructor|]. intros d x X. congruence.
  Qed.
  Lemma strip_iff : forall s t, strip space s = t <-> trimmed space s t.
  Proof.
    intros s t. unfold strip. split.
    - intros <-. destruct (rstrip_spec s) as (b & E & B & L). destruct (lstrip_spec (rstrip space s)) as (a & E2 & A & L2).
      exists a, b. split; [rewrite E at 1; rewrite E2 at 1; now rewrite <- app_assoc|]. split; [exact A|]. split; [exact B|]. split; [exact L2|].
      intros x c X. rewrite X in E2. apply (L (a ++ x) c). now rewrite <- app_assoc.
    - intros (a & b & -> & A & B & L1 & L2). destruct t as [|c t].
      + cbn [app]. rewrite <- (app_nil_r (lstrip space (rstrip space (a ++ b)))). rewrite app_nil_r.
        rewrite rstrip_spaces; [reflexivity|]. now apply Forall_app.
      + rewrite app_assoc, rstrip_end; [now apply lstrip_start|exact B|].
        intros x d E. destruct (list_eq_dec N.eq_dec x a) as [->|N0].
        { apply app_inv_head in E. injection E as -> ->. now apply (L1 d []). }
        destruct (@exists_last _ (c :: t) ltac:(discriminate)) as (y & e & Y). rewrite Y, app_assoc in E.
        apply app_inj_tail in E as [_ ->]. exact (L2 y d Y).
  Qed.
End Strip.
Lemma valid_code : forall s, cc_is_valid (Some s) = true <-> country_code s.
Proof.
  intros s. unfold country_code, cc_is_valid. split.
  - destruct s as [|a [|b [|c s]]]; try discriminate. cbn [length Nat.eqb negb].
    unfold chr. cbn [existsb nth]. intros H. exists a, b. split; [reflexivity|].
    destruct ((a <? 65) || (90 <? a) || ((b <? 65) || (90 <? b) || false)) eqn:E; [discriminate|].
    destruct (a =? 88) eqn:X; [discriminate|]. lia.
  - intros (a & b & -> & A & B & X). cbn [length Nat.eqb negb]. unfold chr. cbn [existsb nth].
    replace ((a <? 65) || (90 <? a) || ((b <? 65) || (90 <? b) || false)) with false by lia. replace (a =? 88) with false by lia. reflexivity.
Qed.
Lemma has_nul_iff : forall s, has_nul s = false <-> ~ In 0 s.
Proof.
  intros s. unfold has_nul. split.
  - intros H I1. assert (existsb (N.eqb 0) s = true) by (apply existsb_exists; exists 0; auto). congruence.
  - intros H. destruct (existsb (N.eqb 0) s) eqn:E; [|reflexivity]. apply existsb_exists in E as (x & I1 & X). apply N.eqb_eq in X as <-. contradiction.
Qed.
Lemma partition_spec : forall sep s, match partition sep s with
  | (x, Some y) => s = x ++ sep :: y /\ plain sep x
  | (x, None) => s = x /\ plain sep x
  end.
Proof.
  intros sep. unfold plain. induction s as [|c s IH]; cbn [partition]; [split; [reflexivity|intros []]|].
  destruct (N.eqb_spec c sep) as [->|N0]; [split; [reflexivity|intros []]|].
  destruct (partition sep s) as [x [y|]]; destruct IH as [E P]; (split; [cbn [app]; now f_equal|]); intros [X|X]; auto.
Qed.
Definition tail_ok (rest : cstr) : Prop := rest = [] \/ exists r, rest = COMMA :: r.
Lemma split4 : forall body n c r i l, split_max COMMA 5 body = n :: c :: r :: i :: l ->
  exists rest, tail_ok rest /\ body = n ++ COMMA :: c ++ COMMA :: r ++ COMMA :: i ++ rest /\ plain COMMA n /\ plain COMMA c /\ plain COMMA r /\ plain COMMA i.
Proof.
  intros body n c r i l H. cbn [split_max] in H.
  pose proof (partition_spec COMMA body) as P1. destruct (partition COMMA body) as [x1 [y1|]]; [|discriminate].
  injection H as -> H. destruct P1 as [-> P1].
  pose proof (partition_spec COMMA y1) as P2. destruct (partition COMMA y1) as [x2 [y2|]]; [|discriminate].
  injection H as -> H. destruct P2 as [-> P2].
  pose proof (partition_spec COMMA y2) as P3. destruct (partition COMMA y2) as [x3 [y3|]]; [|discriminate].
  injection H as -> H. destruct P3 as [-> P3].
  pose proof (partition_spec COMMA y3) as P4. destruct (partition COMMA y3) as [x4 [y4|]].
  - injection H as -> _. destruct P4 as [-> P4]. exists (COMMA :: y4). split; [right; now exists y4|]. auto.
  - injection H as -> _. destruct P4 as [-> P4]. exists []. split; [now left|]. rewrite app_nil_r. auto.
Qed.
Lemma split4_of : forall rest n c r i, tail_ok rest -> plain COMMA n -> plain COMMA c -> plain COMMA r -> plain COMMA i ->
  exists l, split_max COMMA 5 (n ++ COMMA :: c ++ COMMA :: r ++ COMMA :: i ++ rest) = n :: c :: r :: i :: l.
Proof.
  intros rest n c r i T P1 P2 P3 P4. cbn [split_max]. rewrite !partition_plain by assumption.
  destruct T as [->|[y ->]]; [rewrite app_nil_r, partition_none by assumption|rewrite partition_plain by assumption]; eexists; reflexivity.
Qed.

Section Line.
  Variable decode : list N -> option cstr.
  Variable space : N -> bool.
  Variable upper : cstr -> cstr.
  Variable py_net : cstr -> option pnet.
  Notation line_of := (geofeed_line decode space upper py_net).
  Notation is_entry := (entry decode space upper py_net).
  Lemma code_no_nul : forall s, country_code s -> has_nul s = false.
  Proof. intros s (a & b & -> & A & B & _). apply has_nul_iff. intros [X|[X|[]]]; lia. Qed.
  Lemma line_entry : forall line p, line_of line = Row p <-> is_entry line p.
  Proof.
    intros line p. split.
    - unfold geofeed_line. destruct (decode line) as [text|] eqn:D; [|discriminate].
      pose proof (rstrip_spec space text) as T. destruct (rstrip space text) as [|h body] eqn:R; [discriminate|].
      destruct (starts_with HASH (h :: body)) eqn:Hs; [discriminate|].
      destruct (split_max COMMA 5 (h :: body)) as [|n [|c [|r [|i l]]]] eqn:Sp; try discriminate.
      destruct (py_net n) as [net|] eqn:Pn; [|discriminate]. destruct (upper (strip space c)) as [|u cc] eqn:U; [discriminate|].
      destruct (has_nul (u :: cc)); [discriminate|]. destruct (cc_is_valid (Some (u :: cc))) eqn:V; [|discriminate]. cbn [negb].
      destruct (has_nul r || has_nul i) eqn:Nu; [discriminate|]. intros E. injection E as <-.
      apply split4 in Sp as (rest & To & B & P1 & P2 & P3 & P4). apply orb_false_iff in Nu as [N1 N2].
      exists n, c, (strip space c). cbn [pl_region pl_city pl_net pl_country]. split.
      { exists text, (h :: body), rest. auto 10. }
      split; [exact Pn|]. split; [now apply strip_iff|]. split; [exact U|]. split; [now apply valid_code|]. split; now apply has_nul_iff.
    - intros (n & c & code & (text & body & rest & D & T & To & B & P1 & P2 & P3 & P4 & Hs) & Pn & Tr & U & V & N1 & N2).
      unfold geofeed_line. rewrite D. apply rstrip_iff in T. rewrite T. apply strip_iff in Tr.
      destruct (split4_of rest n c (pl_region p) (pl_city p) To P1 P2 P3 P4) as [l Sp]. rewrite <- B in Sp.
      destruct body as [|h body]; [destruct n; discriminate|]. rewrite Hs, Sp, Pn, Tr, U. pose proof V as (a & b & Ec & _).
      destruct (pl_country p) as [|u cc] eqn:Pc; [discriminate|]. rewrite (code_no_nul _ V), (proj2 (valid_code _) V). cbn [negb].
      rewrite (proj2 (has_nul_iff _) N1), (proj2 (has_nul_iff _) N2). cbn [orb]. rewrite <- Pc. now destruct p.
  Qed.
  Lemma in_rstrip : forall s c, In c (rstrip space s) -> In c s.
  Proof. intros s c H. destruct (rstrip_spec space s) as (b & E & _). rewrite E. apply in_or_app. now left. Qed.
  Lemma in_strip : forall s c, In c (strip space s) -> In c s.
  Proof.
    intros s c H. pose proof (proj1 (strip_iff space s _) eq_refl) as (a & b & E & _). rewrite E. apply in_or_app. right. apply in_or_app. now left.
  Qed.
  Lemma line_quiet : (forall s, ~ In 0 s -> ~ In 0 (upper s)) -> forall line, no_nul decode line -> line_of line <> Raised.
  Proof.
    intros Up line N0. unfold no_nul in N0. unfold geofeed_line. destruct (decode line) as [text|]; [|discriminate]. specialize (N0 _ eq_refl).
    destruct (rstrip space text) as [|h body] eqn:R; [discriminate|]. destruct (starts_with HASH (h :: body)); [discriminate|].
    assert (NB : ~ In 0 (h :: body)) by (rewrite <- R; intros H; apply N0; now apply in_rstrip in H).
    destruct (split_max COMMA 5 (h :: body)) as [|n [|c [|r [|i l]]]] eqn:Sp; try discriminate.
    apply split4 in Sp as (rest & _ & B & _). rewrite B in NB.
    destruct (py_net n); [|discriminate]. destruct (upper (strip space c)) as [|u cc] eqn:U; [discriminate|].
    assert (NC : ~ In 0 c) by (intros H; apply NB; apply in_or_app; right; right; apply in_or_app; now left).
    assert (NR : ~ In 0 r) by (intros H; apply NB; apply in_or_app; right; right; apply in_or_app; right; right; apply in_or_app; now left).
    assert (NI : ~ In 0 i) by (intros H; apply NB; apply in_or_app; right; right; apply in_or_app; right; right; apply in_or_app; right; right; apply in_or_app; now left).
    rewrite (proj2 (has_nul_iff (u :: cc))) by (rewrite <- U; apply Up; intros H; apply in_strip in H; contradiction).
    destruct (negb _); [discriminate|]. rewrite (proj2 (has_nul_iff r) NR), (proj2 (has_nul_iff i) NI). discriminate.
  Qed.
  Lemma rows_entries : forall lines rows, geofeed_rows decode space upper py_net lines = Some rows -> entries decode space upper py_net lines rows.
  Proof.
    induction lines as [|l lines IH]; intros rows H; cbn [geofeed_rows] in H; [injection H as <-; constructor|].
    destruct (line_of l) as [p| |] eqn:L; [| |discriminate].
    - destruct (geofeed_rows decode space upper py_net lines) as [ps|]; [|discriminate]. injection H as <-. constructor; [now apply line_entry|auto].
    - apply entries_other; [|auto]. intros p E. apply line_entry in E. congruence.
  Qed.
  Lemma rows_quiet : (forall s, ~ In 0 s -> ~ In 0 (upper s)) -> forall lines, Forall (no_nul decode) lines ->
    geofeed_rows decode space upper py_net lines <> None.
  Proof.
    intros Up lines F. induction F as [|l lines N0 F IH]; cbn [geofeed_rows]; [discriminate|].
    pose proof (line_quiet Up l N0) as Q. destruct (line_of l); [|exact IH|contradiction].
    destruct (geofeed_rows decode space upper py_net lines); [discriminate|contradiction].
  Qed.
End Line.

Section Feeds.
  Variable decode : list N -> option cstr.
  Variable space : N -> bool.
  Variable upper : cstr -> cstr.
  Variable py_net : cstr -> option pnet.
  Variable now : Z.
  Variable web : cstr -> fetched.
  Notation rows := (geofeed_rows decode space upper py_net).
  Notation fetch := (fetch_geofeed decode space upper py_net now web).
  Notation fetches := (fetch_all decode space upper py_net now web).
  Definition smooth (url : cstr) : Prop :=
    web url <> Failed /\ forall lines, web url = Answer lines -> rows lines <> None.
  Definition res (h : geofeed) : geofeed :=
    match web (g_url h) with
    | Answer _ => mkG (g_id h) (g_url h) None (Some now)
    | Http c => mkG (g_id h) (g_url h) (Some c) (g_updated h)
    | Unreachable => mkG (g_id h) (g_url h) (Some 599%Z) (g_updated h)
    | Failed => h
    end.
  Definition resp (h : geofeed) (ps : list place) : list place :=
    match web (g_url h) with
    | Answer lines => match rows lines with Some r => r | None => ps end
    | Http c => if (c =? 404)%Z then [] else ps
    | _ => ps
    end.
  Lemma res_id : forall h, g_id (res h) = g_id h.
  Proof. intros h. unfold res. now destruct (web (g_url h)). Qed.
  Lemma res_url : forall h, g_url (res h) = g_url h.
  Proof. intros h. unfold res. now destruct (web (g_url h)). Qed.
  Lemma same_id : forall l g h, NoDup (map g_id l) -> In g l -> In h l -> g_id g = g_id h -> g = h.
  Proof.
    induction l as [|x l IH]; intros g h D G H E; [destruct G|]. cbn [map] in D. apply NoDup_cons_iff in D as [D1 D2].
    destruct G as [->|G], H as [->|H]; auto.
    - exfalso. apply D1. rewrite E. now apply in_map.
    - exfalso. apply D1. rewrite <- E. now apply in_map.
  Qed.
  Lemma forget_of : forall l id x, filter (fun r : N * place => fst r =? x) (forget id l) = if x =? id then [] else filter (fun r => fst r =? x) l.
  Proof.
    intros l id x. unfold forget. destruct (N.eqb_spec x id) as [->|N0]; (induction l as [|r l IH]; cbn [filter]; [reflexivity|]).
    - destruct (fst r =? id) eqn:E; cbn [negb filter]; [exact IH|]. now rewrite E.
    - destruct (fst r =? id) eqn:E; cbn [negb filter]; rewrite IH; [|reflexivity]. replace (fst r =? x) with false by lia. reflexivity.
  Qed.
  Lemma map_of : forall id x (ps : list place), map snd (filter (fun r : N * place => fst r =? x) (map (fun p => (id, p)) ps)) = if x =? id then ps else [].
  Proof.
    intros id x ps. induction ps as [|p ps IH]; cbn [map filter fst]; [now destruct (x =? id)|]. rewrite (N.eqb_sym id x).
    destruct (x =? id); cbn [map snd]; now rewrite IH.
  Qed.
  Lemma fetch_one : forall g st, NoDup (map g_id (ge_feeds st)) -> In g (ge_feeds st) -> smooth (g_url g) ->
    exists st', fetch g st = Some st' /\ ge_serial st' = ge_serial st /\
      ge_feeds st' = map (fun h => if g_id h =? g_id g then res h else h) (ge_feeds st) /\
      (forall x, places_of st' x = if x =? g_id g then resp g (places_of st x) else places_of st x) /\
      (forall r, In r (ge_places st') -> In r (ge_places st) \/ fst r = g_id g).
  Proof.
    intros g st D I1 [S1 S2]. unfold fetch_geofeed, resp.
    assert (M : forall f, (forall h, g_id h = g_id g -> h = g -> f h = res h) -> (forall h, (g_id h =? g_id g) = false -> f h = h) ->
      map f (ge_feeds st) = map (fun h => if g_id h =? g_id g then res h else h) (ge_feeds st)).
    { intros f F1 F2. apply map_ext_in. intros h Ih. destruct (N.eqb_spec (g_id h) (g_id g)) as [E|E]; [|apply F2; lia].
      apply F1; [exact E|]. exact (same_id _ _ _ D Ih I1 E). }
    destruct (web (g_url g)) as [lines|c| |] eqn:W; [| | |contradiction].
    - destruct (rows lines) as [r|] eqn:R; [|now destruct (S2 lines eq_refl)]. eexists. split; [reflexivity|]. cbn [ge_serial ge_feeds ge_places].
      split; [reflexivity|]. split; [|split].
      + unfold set_updated. apply M.
        * intros h E ->. rewrite N.eqb_refl. unfold res. now rewrite W.
        * intros h E. now rewrite E.
      + intros x. unfold places_of. cbn [ge_places]. rewrite filter_app, map_app, forget_of, map_of. destruct (x =? g_id g); [reflexivity|apply app_nil_r].
      + intros q I2. apply in_app_or in I2 as [I2|I2]; [left; now apply filter_In in I2|right]. apply in_map_iff in I2 as (p & <- & _). reflexivity.
    - eexists. split; [reflexivity|]. cbn [ge_serial ge_feeds ge_places]. split; [reflexivity|]. split; [|split].
      + unfold set_status. apply M.
        * intros h E ->. rewrite N.eqb_refl. unfold res. now rewrite W.
        * intros h E. now rewrite E.
      + intros x. unfold places_of. cbn [ge_places]. destruct (c =? 404)%Z; [|now destruct (x =? g_id g)]. rewrite forget_of. now destruct (x =? g_id g).
      + intros q I2. left. destruct (c =? 404)%Z; [now apply filter_In in I2|exact I2].
    - eexists. split; [reflexivity|]. cbn [ge_serial ge_feeds ge_places]. split; [reflexivity|]. split; [|split].
      + unfold set_status. apply M.
        * intros h E ->. rewrite N.eqb_refl. unfold res. now rewrite W.
        * intros h E. now rewrite E.
      + intros x. unfold places_of. cbn [ge_places]. now destruct (x =? g_id g).
      + intros q I2. now left.
  Qed.
  Definition among (l : list geofeed) (id : N) : bool := existsb (fun g => g_id g =? id) l.
  Lemma among_iff : forall l id, among l id = true <-> exists g, In g l /\ g_id g = id.
  Proof. intros l id. unfold among. rewrite existsb_exists. split; intros (g & I1 & E); exists g; (split; [exact I1|]); now apply N.eqb_eq. Qed.
  Lemma fetch_many : forall l st, NoDup (map g_id l) -> NoDup (map g_id (ge_feeds st)) -> (forall g, In g l -> In g (ge_feeds st) /\ smooth (g_url g)) ->
    exists st', fetches l st = (st', true) /\ ge_serial st' = ge_serial st /\
      ge_feeds st' = map (fun h => if among l (g_id h) then res h else h) (ge_feeds st) /\
      (forall h, In h (ge_feeds st) -> places_of st' (g_id h) = if among l (g_id h) then resp h (places_of st (g_id h)) else places_of st (g_id h)) /\
      (forall r, In r (ge_places st') -> In r (ge_places st) \/ among l (fst r) = true).
  Proof.
    induction l as [|g l IH]; intros st Dl D H.
    - exists st. cbn [fetch_all]. split; [reflexivity|]. split; [reflexivity|]. split; [now rewrite map_id|]. split; [reflexivity|auto].
    - cbn [map] in Dl. apply NoDup_cons_iff in Dl as [Dg Dl]. destruct (H g (or_introl eq_refl)) as [Ig Sg].
      destruct (fetch_one g st D Ig Sg) as (st1 & F & Se & Fe & Pl & Or). cbn [fetch_all]. rewrite F.
      assert (Ids : map g_id (ge_feeds st1) = map g_id (ge_feeds st)).
      { rewrite Fe, map_map. apply map_ext. intros h. destruct (g_id h =? g_id g); [apply res_id|reflexivity]. }
      assert (D1 : NoDup (map g_id (ge_feeds st1))) by now rewrite Ids.
      assert (Keep : forall h, In h (ge_feeds st) -> g_id h <> g_id g -> In h (ge_feeds st1)).
      { intros h Ih N0. rewrite Fe. apply in_map_iff. exists h. split; [|exact Ih]. now replace (g_id h =? g_id g) with false by lia. }
      destruct (IH st1 Dl D1) as (st2 & F2 & Se2 & Fe2 & Pl2 & Or2).
      { intros h Ih. destruct (H h (or_intror Ih)) as [Ih' Sh]. split; [|exact Sh]. apply Keep; [exact Ih'|]. intros E. apply Dg. rewrite <- E. now apply in_map. }
      exists st2. split; [exact F2|]. split; [congruence|].
      assert (Lg : among l (g_id g) = false).
      { destruct (among l (g_id g)) eqn:A; [|reflexivity]. apply among_iff in A as (h & Ih & E). exfalso. apply Dg. rewrite <- E. now apply in_map. }
      split; [|split].
      + rewrite Fe2, Fe, map_map. apply map_ext. intros h. cbn [among existsb]. fold (among l (g_id h)). rewrite (N.eqb_sym (g_id g)).
        destruct (N.eqb_spec (g_id h) (g_id g)) as [E|E]; cbn [orb]; [|reflexivity]. rewrite res_id, E, Lg. reflexivity.
      + intros h Ih. cbn [among existsb]. fold (among l (g_id h)). rewrite (N.eqb_sym (g_id g)).
        destruct (N.eqb_spec (g_id h) (g_id g)) as [E|E]; cbn [orb].
        * pose proof (same_id _ _ _ D Ih Ig E) as ->.
          assert (I1 : In (res g) (ge_feeds st1)) by (rewrite Fe; apply in_map_iff; exists g; split; [now rewrite N.eqb_refl|exact Ig]).
          specialize (Pl2 _ I1). rewrite res_id, Lg in Pl2. rewrite Pl2, Pl, N.eqb_refl. reflexivity.
        * specialize (Pl2 h (Keep h Ih E)). rewrite Pl2, Pl. replace (g_id h =? g_id g) with false by lia. reflexivity.
      + intros r Ir. cbn [among existsb]. destruct (Or2 r Ir) as [Ir1|A]; [|right; unfold among in A; rewrite A; apply orb_true_r].
        destruct (Or r Ir1) as [Ir2|E]; [now left|]. right. rewrite E, N.eqb_refl. reflexivity.
  Qed.
End Feeds.

Lemma insert_perm : forall g l, Permutation (insert_id g l) (g :: l).
Proof.
  induction l as [|h l IH]; cbn [insert_id]; [apply Permutation_refl|]. destruct (g_id g <=? g_id h); [apply Permutation_refl|].
  rewrite IH. apply perm_swap.
Qed.
Lemma by_id_perm : forall l, Permutation (by_id l) l.
Proof. induction l as [|g l IH]; cbn [by_id fold_right]; [constructor|]. rewrite insert_perm. now constructor. Qed.
Lemma nodup_filter : forall A B (f : A -> B) (p : A -> bool) l, NoDup (map f l) -> NoDup (map f (filter p l)).
Proof.
  intros A B f p. induction l as [|x l IH]; intros D; cbn [filter map] in *; [constructor|]. apply NoDup_cons_iff in D as [D1 D2].
  destruct (p x); [|auto]. cbn [map]. constructor; [|auto]. intros H. apply D1. apply in_map_iff in H as (y & <- & H). apply filter_In in H as [H _]. now apply in_map.
Qed.
Lemma linked_iff : forall url l, existsb (cstr_eqb url) l = true <-> In url l.
Proof.
  intros url l. rewrite existsb_exists. split; [intros (x & I1 & E); apply cstr_eqb_eq in E; now subst|]. intros I1. exists url. split; [exact I1|]. now apply cstr_eqb_eq.
Qed.

Section Linking.
  Variable st : geo.
  Variable linked : list cstr.
  Hypothesis Wf : geo_wf st.
  Definition linking (st1 : geo) : Prop :=
    geo_wf st1 /\ ge_serial st <= ge_serial st1 /\
    (forall g, In g (ge_feeds st1) -> In (g_url g) linked /\ before st (g_url g) (g_id g) (g_status g) (g_updated g) (places_of st1 (g_id g))) /\
    (forall g, In g (ge_feeds st) -> In (g_url g) linked -> In g (ge_feeds st1)).
  Lemma unlink_linking : linking (unlink linked st).
  Proof.
    destruct Wf as (D1 & D2 & Lt & Fk). unfold unlink, linking. cbn [ge_feeds ge_serial].
    assert (In1 : forall g, In g (filter (fun g => existsb (cstr_eqb (g_url g)) linked) (ge_feeds st)) <-> In g (ge_feeds st) /\ In (g_url g) linked).
    { intros g. rewrite filter_In, linked_iff. reflexivity. }
    split; [|split; [lia|split]].
    - split; [now apply nodup_filter|]. split; [now apply nodup_filter|]. cbn [ge_feeds ge_serial ge_places]. split.
      + intros g I1. apply In1 in I1 as [I1 _]. auto.
      + intros r I1. apply filter_In in I1 as [_ E]. apply existsb_exists in E as (g & I2 & E). exists g. split; [exact I2|]. now apply N.eqb_eq.
    - intros g I1. pose proof I1 as I3. apply In1 in I1 as [I1 I2]. split; [exact I2|]. left. split; [now destruct g|].
      unfold places_of. cbn [ge_places]. f_equal. clear - I3. induction (ge_places st) as [|r l IH]; cbn [filter]; [reflexivity|].
      destruct (existsb (fun g0 => g_id g0 =? fst r) _) eqn:E; cbn [filter]; rewrite IH; [reflexivity|].
      destruct (N.eqb_spec (fst r) (g_id g)) as [X|X]; [|reflexivity]. exfalso.
      assert (existsb (fun g0 => g_id g0 =? fst r) (filter (fun g => existsb (cstr_eqb (g_url g)) linked) (ge_feeds st)) = true); [|congruence].
      apply existsb_exists. exists g. split; [exact I3|]. lia.
    - intros g I1 I2. apply In1. now split.
  Qed.
  Lemma link_linking : forall url st1, In url linked -> linking st1 -> linking (link url st1) /\
    (exists g, In g (ge_feeds (link url st1)) /\ g_url g = url) /\ (forall g, In g (ge_feeds st1) -> In g (ge_feeds (link url st1))).
  Proof.
    intros url st1 Iu ((D1 & D2 & Lt & Fk) & Se & Be & Ol). unfold link.
    destruct (existsb (fun g => cstr_eqb (g_url g) url) (ge_feeds st1)) eqn:E.
    - split; [|split].
      + split; [|cbn [ge_feeds ge_serial]; split; [lia|split; [exact Be|exact Ol]]].
        split; [exact D1|]. split; [exact D2|]. cbn [ge_feeds ge_serial ge_places]. split; [intros g I1; specialize (Lt g I1); lia|exact Fk].
      + apply existsb_exists in E as (g & I1 & E). apply cstr_eqb_eq in E. now exists g.
      + auto.
    - assert (Nu : forall g, In g (ge_feeds st1) -> g_url g <> url).
      { intros g I1 X. assert (existsb (fun g => cstr_eqb (g_url g) url) (ge_feeds st1) = true); [|congruence].
        apply existsb_exists. exists g. split; [exact I1|]. now apply cstr_eqb_eq. }
      cbn [ge_feeds]. split; [|split].
      + split; [|cbn [ge_feeds ge_serial]; split; [lia|split]].
        * split; [|split]; cbn [ge_feeds ge_serial ge_places].
          -- rewrite map_app. cbn [map g_id]. apply (Permutation_NoDup (l := ge_serial st1 :: map g_id (ge_feeds st1))); [apply Permutation_cons_append|].
             constructor; [|exact D1]. intros X. apply in_map_iff in X as (g & X & I1). specialize (Lt g I1). lia.
          -- rewrite map_app. cbn [map g_url]. apply (Permutation_NoDup (l := url :: map g_url (ge_feeds st1))); [apply Permutation_cons_append|].
             constructor; [|exact D2]. intros X. apply in_map_iff in X as (g & X & I1). now apply (Nu g I1).
          -- split; [intros g I1; apply in_app_or in I1 as [I1|[<-|[]]]; [specialize (Lt g I1); lia|cbn [g_id]; lia]|].
             intros r I1. destruct (Fk r I1) as (g & I2 & X). exists g. split; [apply in_or_app; now left|exact X].
        * intros g I1. apply in_app_or in I1 as [I1|[<-|[]]]; [exact (Be g I1)|]. cbn [g_url g_id g_status g_updated]. split; [exact Iu|]. right.
          destruct Wf as (_ & _ & Lt0 & _). split; [|split; [reflexivity|split; [reflexivity|]]].
          -- intros g I1. split; [intros X; apply (Nu g); [|exact X]; apply Ol; [exact I1|congruence]|]. specialize (Lt0 g I1). lia.
          -- unfold places_of. cbn [ge_places]. replace (filter _ _) with (@nil (N * place)); [reflexivity|]. symmetry.
             destruct (filter (fun r => fst r =? ge_serial st1) (ge_places st1)) as [|r l] eqn:Fi; [reflexivity|]. exfalso.
             assert (I1 : In r (filter (fun r => fst r =? ge_serial st1) (ge_places st1))) by (rewrite Fi; now left).
             apply filter_In in I1 as [I1 X]. destruct (Fk r I1) as (g & I2 & Y). specialize (Lt g I2). lia.
        * intros g I1 I2. apply in_or_app. left. auto.
      + exists (mkG (ge_serial st1) url None None). split; [apply in_or_app; right; now left|reflexivity].
      + intros g I1. apply in_or_app. now left.
  Qed.
  Lemma links_linking : forall l st1, (forall url, In url l -> In url linked) -> linking st1 ->
    linking (fold_left (fun st url => link url st) l st1) /\
    (forall url, In url l -> exists g, In g (ge_feeds (fold_left (fun st url => link url st) l st1)) /\ g_url g = url) /\
    (forall g, In g (ge_feeds st1) -> In g (ge_feeds (fold_left (fun st url => link url st) l st1))).
  Proof.
    induction l as [|url l IH]; intros st1 H L; cbn [fold_left]; [split; [exact L|]; split; [intros ? []|auto]|].
    destruct (link_linking url st1 (H url (or_introl eq_refl)) L) as (L1 & (g & Ig & Ug) & Sub).
    destruct (IH (link url st1) (fun u I1 => H u (or_intror I1)) L1) as (L2 & C2 & Sub2).
    split; [exact L2|]. split; [|auto]. intros u [<-|I1]; [|auto]. exists g. auto.
  Qed.
End Linking.

Lemma older_iff : forall now t g, older now t g = false <-> age_under now t (g_updated g).
Proof. intros now t g. unfold older, age_under. destruct (g_updated g); [lia|split; [discriminate|tauto]]. Qed.
Lemma older_no : forall now t g, older now t g = true <-> ~ age_under now t (g_updated g).
Proof. intros now t g. rewrite <- older_iff. destruct (older now t g); split; congruence. Qed.
Lemma expire_places : forall now st g, NoDup (map g_id (ge_feeds st)) -> In g (ge_feeds st) ->
  places_of (expire now st) (g_id g) = if older now (2 * week) g then [] else places_of st (g_id g).
Proof.
  intros now st g D I1. unfold expire, places_of. cbn [ge_places].
  induction (ge_places st) as [|r l IH]; cbn [filter]; [now destruct (older now (2 * week) g)|].
  destruct (existsb (fun g0 => (g_id g0 =? fst r) && older now (2 * week) g0) (ge_feeds st)) eqn:E; cbn [negb filter].
  - rewrite IH. destruct (N.eqb_spec (fst r) (g_id g)) as [X|X]; [|reflexivity].
    apply existsb_exists in E as (h & I2 & E). apply andb_true_iff in E as [E O]. apply N.eqb_eq in E.
    assert (h = g) as -> by (apply (same_id (ge_feeds st)); congruence). now rewrite O.
  - destruct (N.eqb_spec (fst r) (g_id g)) as [X|X]; [|exact IH]. cbn [map]. rewrite IH.
    destruct (older now (2 * week) g) eqn:O; [|reflexivity]. exfalso.
    assert (existsb (fun g0 => (g_id g0 =? fst r) && older now (2 * week) g0) (ge_feeds st) = true); [|congruence].
    apply existsb_exists. exists g. split; [exact I1|]. rewrite O, X, N.eqb_refl. reflexivity.
Qed.
Lemma geofeeds_updated : forall decode space upper py_net now web linked st,
  geo_wf st -> (forall s, ~ In 0 s -> ~ In 0 (upper s)) ->
  (forall url, In url linked -> web url <> Failed /\ forall lines, web url = Answer lines -> Forall (no_nul decode) lines) ->
  exists st', update_geofeeds decode space upper py_net now web linked st = (st', true) /\ geo_wf st' /\
    (forall url, In url linked <-> exists g, In g (ge_feeds st') /\ g_url g = url) /\
    forall g, In g (ge_feeds st') -> exists status updated places,
      before st (g_url g) (g_id g) status updated places /\
      result decode space upper py_net now (web (g_url g)) status updated places (g_status g) (g_updated g) (places_of st' (g_id g)).
Proof.
  intros decode space upper py_net now web linked st Wf Up H.
  destruct (links_linking st linked Wf linked (unlink linked st) (fun _ I1 => I1) (unlink_linking st linked Wf)) as (L & C & _).
  unfold update_geofeeds. set (st1 := fold_left (fun st url => link url st) linked (unlink linked st)) in *. clearbody st1.
  destruct L as ((D1 & D2 & Lt & Fk) & Se & Be & _).
  assert (Perm : Permutation (by_id (filter (older now week) (ge_feeds st1))) (filter (older now week) (ge_feeds st1))) by apply by_id_perm.
  set (l := by_id (filter (older now week) (ge_feeds st1))) in *. clearbody l.
  assert (Il : forall g, In g l <-> In g (ge_feeds st1) /\ older now week g = true).
  { intros g. rewrite <- filter_In. split; apply Permutation_in; [exact Perm|now apply Permutation_sym]. }
  destruct (fetch_many decode space upper py_net now web l st1) as (st2 & F & Se2 & Fe2 & Pl2 & Or2).
  { apply (Permutation_NoDup (l := map g_id (filter (older now week) (ge_feeds st1)))); [apply Permutation_map; now apply Permutation_sym|].
    now apply nodup_filter. }
  { exact D1. }
  { intros g I1. apply Il in I1 as [I1 _]. split; [exact I1|]. destruct (Be g I1) as [Iu _]. destruct (H _ Iu) as [H1 H2]. split; [exact H1|].
    intros lines W. apply rows_quiet; [exact Up|]. now apply H2. }
  rewrite F.
  assert (Am : forall h, In h (ge_feeds st1) -> among l (g_id h) = older now week h).
  { intros h Ih. destruct (older now week h) eqn:O.
    - apply (proj2 (among_iff l (g_id h))). exists h. split; [apply Il; now split|reflexivity].
    - destruct (among l (g_id h)) eqn:A; [|reflexivity]. apply among_iff in A as (g & Ig & E). apply Il in Ig as [Ig O2].
      rewrite (same_id _ _ _ D1 Ig Ih E) in O2. congruence. }
  assert (Ids : map g_id (ge_feeds st2) = map g_id (ge_feeds st1)).
  { rewrite Fe2, map_map. apply map_ext. intros h. destruct (among l (g_id h)); [apply res_id|reflexivity]. }
  assert (Urls : map g_url (ge_feeds st2) = map g_url (ge_feeds st1)).
  { rewrite Fe2, map_map. apply map_ext. intros h. destruct (among l (g_id h)); [apply res_url|reflexivity]. }
  assert (D1' : NoDup (map g_id (ge_feeds st2))) by now rewrite Ids.
  exists (expire now st2). split; [reflexivity|]. split; [|split].
  - split; [exact D1'|]. split; [cbn [expire ge_feeds]; now rewrite Urls|]. cbn [expire ge_feeds ge_serial ge_places]. split.
    + intros g I1. apply (in_map g_id) in I1. rewrite Ids in I1. apply in_map_iff in I1 as (h & E & I1). specialize (Lt h I1). lia.
    + intros r I1. apply filter_In in I1 as [I1 _].
      assert (X : exists g, In g (ge_feeds st1) /\ g_id g = fst r).
      { destruct (Or2 r I1) as [I2|A]; [exact (Fk r I2)|]. apply among_iff in A as (g & Ig & E). apply Il in Ig as [Ig _]. now exists g. }
      destruct X as (g & Ig & E). assert (I2 : In (g_id g) (map g_id (ge_feeds st2))) by (rewrite Ids; now apply in_map).
      apply in_map_iff in I2 as (h & E2 & I2). exists h. split; [exact I2|congruence].
  - intros url. cbn [expire ge_feeds]. split.
    + intros Iu. destruct (C url Iu) as (g & Ig & E). apply (in_map g_url) in Ig. rewrite <- Urls in Ig. apply in_map_iff in Ig as (h & E2 & Ih). exists h. split; [exact Ih|congruence].
    + intros (g & Ig & E). apply (in_map g_url) in Ig. rewrite Urls in Ig. apply in_map_iff in Ig as (h & E2 & Ih). destruct (Be h Ih) as [Iu _]. congruence.
  - intros g' Ig'. change (In g' (ge_feeds st2)) in Ig'. rewrite (expire_places now st2 g' D1' Ig').
    rewrite Fe2 in Ig'. apply in_map_iff in Ig' as (h & Eg & Ih). rewrite (Am h Ih) in Eg.
    destruct (Be h Ih) as [Iu B]. specialize (Pl2 h Ih). rewrite (Am h Ih) in Pl2.
    exists (g_status h), (g_updated h), (places_of st1 (g_id h)).
    assert (Ei : g_id g' = g_id h) by (subst g'; destruct (older now week h); [apply res_id|reflexivity]).
    assert (Eu : g_url g' = g_url h) by (subst g'; destruct (older now week h); [apply res_url|reflexivity]).
    rewrite Ei, Eu, Pl2. split; [exact B|].
    assert (W2 : (2 * week)%Z = (14 * 86400 * 1000000)%Z) by reflexivity.
    assert (W1 : week = (7 * 86400 * 1000000)%Z) by reflexivity.
    destruct (older now week h) eqn:O.
    + apply older_no in O. rewrite W1 in O. unfold resp. subst g'. unfold res.
      destruct (H _ Iu) as [H1 H2].
      destruct (web (g_url h)) as [lines|c| |] eqn:Wb; [| | |contradiction]; cbn [g_status g_updated].
      * replace (older now (2 * week) _) with false by (symmetry; unfold older; cbn [g_updated]; change (2 * week)%Z with (14 * 86400 * 1000000)%Z; lia).
        destruct (geofeed_rows decode space upper py_net lines) as [rows|] eqn:R; [|now destruct (rows_quiet decode space upper py_net Up lines (H2 lines eq_refl))].
        apply result_new; [exact O|]. now apply rows_entries.
      * destruct (c =? 404)%Z eqn:C4.
        -- apply Z.eqb_eq in C4 as ->. destruct (older _ _ _); now apply result_gone.
        -- destruct (older now (2 * week) _) eqn:O2.
           ++ apply result_expired; [left; split; [reflexivity|lia]|]. apply older_no in O2. rewrite W2 in O2. exact O2.
           ++ apply result_kept; [exact O|left; split; [reflexivity|lia]|]. apply older_iff in O2. rewrite W2 in O2. exact O2.
      * destruct (older now (2 * week) _) eqn:O2.
        -- apply result_expired; [now right|]. apply older_no in O2. rewrite W2 in O2. exact O2.
        -- apply result_kept; [exact O|now right|]. apply older_iff in O2. rewrite W2 in O2. exact O2.
    + apply older_iff in O. subst g'. replace (older now (2 * week) h) with false.
      * apply result_fresh. rewrite <- W1. exact O.
      * symmetry. apply older_iff. unfold age_under in *. destruct (g_updated h); [|contradiction].
        change (2 * week)%Z with (14 * 86400 * 1000000)%Z. change week with (7 * 86400 * 1000000)%Z in O. lia.
Qed.
