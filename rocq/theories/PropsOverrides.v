(** C72 and C73: overrides and countries *)
From Coq Require Import String.
From Coq Require Import NArith ZArith List Bool Lia ZifyBool ZifyNat ZifyN.
From Verif Require Import Base ModelCountryCode ModelStringPool SpecText LemmasStringPool ModelImport SpecImport
  LemmasImportTable ModelCompile ModelGeofeed SpecGeofeed LemmasGeofeed ModelOverrides SpecOverrides LemmasOverrides.
Import ListNotations.
Open Scope N_scope.

(** ** C72: after the import the tables have what the files say *)
(** Missing: files with a block that cannot be handled, which keep all others from being
    applied; see [C72_stopped]. *)
Theorem C72_update_partial : forall decode space lower py_net py_net_strict bigint urlparse files st, geo_wf (ov_geo st) ->
  let blocks := concat (map (iterate_over_blocks space decode) files) in
  (forall b, In b blocks -> ~ stops space py_net bigint urlparse b) ->
  exists st', update_overrides decode space lower py_net py_net_strict bigint urlparse files st = Some st' /\
    NoDup (map fst (ov_networks st')) /\ (forall n a, In (n, a) (ov_networks st') <-> first_says (wants_net space lower py_net) blocks n a) /\
    NoDup (map fst (ov_autnums st')) /\
    (forall z x, In (z, x) (ov_autnums st') <-> first_says (fun b z x => wants_as space lower bigint b z (fst x) (snd x)) blocks z x) /\
    geo_wf (ov_geo st') /\
    known_feeds (ov_geo st) (ov_geo st') (fun url => exists b n, In b blocks /\ wants_feed space py_net_strict urlparse b url n) /\
    forall n url s, In (n, url, s) (ov_links st') <->
      permits (ov_links st) (fun url n => exists b, In b blocks /\ wants_feed space py_net_strict urlparse b url n) n url s.
Proof. exact overrides_updated. Qed.
Print Assumptions C72_update_partial.
Theorem C72_stopped : forall decode space lower py_net py_net_strict bigint urlparse files st,
  (exists b, In b (concat (map (iterate_over_blocks space decode) files)) /\ stops space py_net bigint urlparse b) ->
  update_overrides decode space lower py_net py_net_strict bigint urlparse files st = None.
Proof. exact overrides_stopped. Qed.
Print Assumptions C72_stopped.

Definition space72 (c : N) : bool := (c =? 32) || ((9 <=? c) && (c <=? 13)).
Definition lower72 (s : cstr) : cstr := map (fun c => if (65 <=? c) && (c <=? 90) then c + 32 else c) s.
Definition net72 (s : cstr) : option pnet :=
  if cstr_eqb s (txt "1.0.0.0/24") || cstr_eqb s (txt "1.0.0.1/24") then Some (mkP 32 16777216 24)
  else if cstr_eqb s (txt "0.0.0.0/0") then Some (mkP 32 0 0) else None.
Definition strict72 (s : cstr) : option pnet := if cstr_eqb s (txt "1.0.0.0/24") then Some (mkP 32 16777216 24) else None.
Definition int72 (s : cstr) : option Z := if cstr_eqb s (txt "13335") then Some 13335%Z else None.
Definition url72 (s : cstr) : option (cstr * cstr) :=
  if cstr_eqb (firstn 6 s) (txt "https:") then Some (txt "https", s) else Some (txt "http", s).
Definition file72 : list (list N) :=
  [txt "# Overrides"; txt "net:     1.0.0.1/24 # ours"; txt "country: de"; txt "country: FR"; txt "drop: YES"; txt "is-anycast: 0"; txt "is-satellite-provider: maybe"; [10];
   txt "net: 1.0.0.0/24"; txt "country: GB"; []; txt "net: 0.0.0.0/0"; txt "country: GB"; []; txt "net: nothing"; txt "country: GB"; [];
   txt "aut-num: AS13335"; txt "name: A: name"; txt "drop: no"; []; txt "aut-num: 5"; []; txt "route: 1"; [];
   txt "geofeed: https://a"; txt "network: 1.0.0.0/24"; txt "network: nothing"; []; txt "geofeed: https://b"; []; txt "geofeed: http://c"].
Definition st72 : overrides := mkOv [(mkP 32 0 8, mkAttrs None None None None None)] [] (mkGeo [mkG 1 (txt "https://a") None (Some 7%Z)] [] 2)
  [(mkP 32 0 8, txt "https://a", txt "overrides"); (mkP 32 0 8, txt "https://a", txt "RIPE"); (mkP 32 16777216 24, txt "https://a", txt "RIPE")].
Example C72_case :
  let blocks := concat (map (iterate_over_blocks space72 (fun s => s)) [file72; file72]) in
  geo_wf (ov_geo st72) /\ (forall b, In b blocks -> ~ stops space72 net72 int72 url72 b) /\
  update_overrides (fun s => s) space72 lower72 net72 strict72 int72 url72 [file72; file72] st72 =
    Some (mkOv [(mkP 32 16777216 24, mkAttrs (Some (txt "FR")) None None (Some false) (Some true))]
               [(13335%Z, (Some (txt "A: name"), mkAttrs None None None None (Some false)))]
               (mkGeo [mkG 1 (txt "https://a") None (Some 7%Z); mkG 3 (txt "https://b") None None] [] 6)
               [(mkP 32 0 8, txt "https://a", txt "RIPE"); (mkP 32 16777216 24, txt "https://a", txt "overrides");
                (mkP 128 0 0, txt "https://b", txt "overrides"); (mkP 32 0 0, txt "https://b", txt "overrides")]).
Proof.
  split; [|split].
  - split; [|split; [|split]]; try (repeat constructor; vm_compute; intuition discriminate).
    intros g [<-|[]]. vm_compute. reflexivity.
  - intros b I1 St. apply (parse_stops space72 lower72 net72 strict72 int72 url72) in St.
    assert (X : forallb (fun b => match parse_block space72 lower72 net72 strict72 int72 url72 b with Some _ => true | None => false end)
      (concat (map (iterate_over_blocks space72 (fun s => s)) [file72; file72])) = true) by (vm_compute; reflexivity).
    rewrite forallb_forall in X. apply X in I1. rewrite St in I1. discriminate.
  - vm_compute. reflexivity.
Qed.
(** A line without a colon keeps all overrides from being applied *)
Theorem C72_line_refuted : exists file,
  file = [txt "net: 1.0.0.0/24"; txt "country: DE"; []; txt "nothing"] /\
  wants_net space72 lower72 net72 [txt "net: 1.0.0.0/24"; txt "country: DE"] (mkP 32 16777216 24) (mkAttrs (Some (txt "DE")) None None None None) /\
  forall st, update_overrides (fun s => s) space72 lower72 net72 strict72 int72 url72 [file] st = None.
Proof.
  eexists. split; [reflexivity|]. split; [|reflexivity].
  apply (parse_net space72 lower72 net72 strict72 int72 url72); [|vm_compute; reflexivity].
  intros St. apply (parse_stops space72 lower72 net72 strict72 int72 url72) in St. vm_compute in St. discriminate.
Qed.
Print Assumptions C72_line_refuted.
(** A feed may be used for all networks if all networks it is for are mistyped *)
Theorem C72_permitted_refuted : exists block,
  block = [txt "geofeed: https://a"; txt "network: 1.0.0.1/24"] /\ net72 (txt "1.0.0.1/24") = Some (mkP 32 16777216 24) /\
  wants_feed space72 strict72 url72 block (txt "https://a") (mkP 32 0 0).
Proof.
  eexists. split; [reflexivity|]. split; [reflexivity|].
  apply (parse_feed space72 lower72 net72 strict72 int72 url72).
  - intros St. apply (parse_stops space72 lower72 net72 strict72 int72 url72) in St. vm_compute in St. discriminate.
  - eexists. split; [vm_compute; reflexivity|]. right. now left.
Qed.
Print Assumptions C72_permitted_refuted.
(** A country is not checked *)
Theorem C72_country_refuted : exists block n a,
  block = [txt "net: 1.0.0.0/24"; txt "country:"] /\ wants_net space72 lower72 net72 block n a /\ a_country a = Some [].
Proof.
  eexists _, (mkP 32 16777216 24), (mkAttrs (Some []) None None None None). split; [reflexivity|]. split; [|reflexivity].
  apply (parse_net space72 lower72 net72 strict72 int72 url72); [|vm_compute; reflexivity].
  intros St. apply (parse_stops space72 lower72 net72 strict72 int72 url72) in St. vm_compute in St. discriminate.
Qed.
Print Assumptions C72_country_refuted.

(** ** C73: the table of countries has those of the files *)
Theorem C73_countries : forall space files,
  (forall l code continent name, In l (concat files) -> country_entry space l code continent name -> ~ In 0 code /\ ~ In 0 continent /\ ~ In 0 name) ->
  exists t, import_countries space files = Some t /\ NoDup (map fst t) /\
    forall code x, In (code, x) t <-> first_says (fun l code x => country_entry space l code (fst x) (snd x)) (concat files) code x.
Proof. exact countries_imported. Qed.
Print Assumptions C73_countries.
Theorem C73_line : forall space line code continent name, country_line space line = Row (code, (continent, name)) <->
  country_entry space line code continent name /\ ~ In 0 code /\ ~ In 0 continent /\ ~ In 0 name.
Proof. exact country_row. Qed.
Print Assumptions C73_line.
Definition file73 : list cstr :=
  [txt "# Countries"; txt "DE	EU	Germany" ++ [10]; txt "  AE AS   United Arab Emirates " ++ [13; 10]; []; txt "DE AS Other"; txt "XX"; txt "FR EU"].
Example C73_case :
  (forall l code continent name, In l (concat [file73]) -> country_entry space72 l code continent name -> ~ In 0 code /\ ~ In 0 continent /\ ~ In 0 name) /\
  import_countries space72 [file73] =
    Some [(txt "DE", (txt "EU", txt "Germany")); (txt "AE", (txt "AS", txt "United Arab Emirates"))].
Proof.
  split; [|vm_compute; reflexivity]. intros l code continent name I1 E.
  assert (X : forallb (fun l => match country_line space72 l with Raised => false | _ => true end) (concat [file73]) = true) by (vm_compute; reflexivity).
  rewrite forallb_forall in X. apply X in I1. destruct (in_dec N.eq_dec 0 (code ++ continent ++ name)) as [H|H].
  - assert (R : country_line space72 l = Raised); [|rewrite R in I1; discriminate].
    apply country_raised. exists code, continent, name. split; [exact E|]. intros (H1 & H2 & H3). rewrite !in_app_iff in H. tauto.
  - rewrite !in_app_iff in H. tauto.
Qed.
