(** C71: geofeeds *)
From Coq Require Import String.
From Coq Require Import NArith ZArith List Bool Lia ZifyBool ZifyNat ZifyN.
From Verif Require Import Base ModelCountryCode ModelStringPool SpecText LemmasStringPool ModelImport SpecImport
  LemmasImportTable ModelGeofeed SpecGeofeed LemmasGeofeed.
Import ListNotations.
Open Scope N_scope.

(** ** C71: the rows of a geofeed are the entries of its file *)
Theorem C71_line : forall decode space upper py_net line p,
  geofeed_line decode space upper py_net line = Row p <-> entry decode space upper py_net line p.
Proof. exact line_entry. Qed.
Print Assumptions C71_line.
(** Missing: lines with a NUL, and errors of the downloader that are not expected. *)
Theorem C71_update_partial : forall decode space upper py_net now web linked st,
  geo_wf st -> (forall s, ~ In 0 s -> ~ In 0 (upper s)) ->
  (forall url, In url linked -> web url <> Failed /\ forall lines, web url = Answer lines -> Forall (no_nul decode) lines) ->
  exists st', update_geofeeds decode space upper py_net now web linked st = (st', true) /\ geo_wf st' /\
    (forall url, In url linked <-> exists g, In g (ge_feeds st') /\ g_url g = url) /\
    forall g, In g (ge_feeds st') -> exists status updated places,
      before st (g_url g) (g_id g) status updated places /\
      result decode space upper py_net now (web (g_url g)) status updated places (g_status g) (g_updated g) (places_of st' (g_id g)).
Proof. exact geofeeds_updated. Qed.
Print Assumptions C71_update_partial.

Definition ascii (s : list N) : option cstr := if forallb (fun c => c <? 128) s then Some s else None.
Definition space71 (c : N) : bool := (c =? 32) || ((9 <=? c) && (c <=? 13)).
Definition upper71 (s : cstr) : cstr := map (fun c => if (97 <=? c) && (c <=? 122) then c - 32 else c) s.
Definition net71 (s : cstr) : option pnet :=
  if cstr_eqb s (txt "1.0.0.0/24") then Some (mkP 32 16777216 24) else if cstr_eqb s (txt "2.0.0.0/24") then Some (mkP 32 33554432 24) else None.
Definition file71 : list (list N) :=
  [txt "# prefix,country,region,city,postal" ++ [10]; txt "1.0.0.0/24, de ,DE-NW,Hagen," ++ [13; 10]; [10]; txt "nothing,DE,," ++ [10];
   txt "2.0.0.0/24,XX,,"; txt "2.0.0.0/24,,,"; txt "2.0.0.0/24,FR,"; txt "2.0.0.0/24,FR,,Paris,,,," ++ [10]].
Definition places71 : list place := [mkPlace (mkP 32 16777216 24) (txt "DE") (txt "DE-NW") (txt "Hagen"); mkPlace (mkP 32 33554432 24) (txt "FR") [] (txt "Paris")].
(** five feeds: one to be fetched, one that is gone, one that cannot be reached, one that was fetched, one that is not linked any more; and a new one *)
Definition day71 : Z := 86400 * 1000000.
Definition a_place (c : cstr) : place := mkPlace (mkP 32 0 8) c [] [].
Definition st71 : geo := mkGeo
  [mkG 1 (txt "u1") None (Some (80 * day71)%Z); mkG 2 (txt "u2") None (Some (90 * day71)%Z); mkG 3 (txt "u3") None (Some (90 * day71)%Z);
   mkG 4 (txt "u4") None (Some (95 * day71)%Z); mkG 5 (txt "u5") None (Some (95 * day71)%Z); mkG 6 (txt "u6") (Some 500%Z) (Some (86 * day71)%Z)]
  [(1, a_place (txt "AT")); (2, a_place (txt "CH")); (3, a_place (txt "IT")); (4, a_place (txt "ES")); (5, a_place (txt "PT")); (6, a_place (txt "PL"))] 7.
Definition web71 (url : cstr) : fetched :=
  if cstr_eqb url (txt "u1") then Answer file71
  else if cstr_eqb url (txt "u2") then Http 404
  else if cstr_eqb url (txt "u3") then Unreachable
  else if cstr_eqb url (txt "u6") then Http 503
  else if cstr_eqb url (txt "u7") then Answer file71 else Answer [].
Definition linked71 : list cstr := [txt "u1"; txt "u2"; txt "u3"; txt "u4"; txt "u6"; txt "u7"; txt "u1"].
Example C71_case :
  geo_wf st71 /\ (forall s, ~ In 0 s -> ~ In 0 (upper71 s)) /\
  (forall url, In url linked71 -> web71 url <> Failed /\ forall lines, web71 url = Answer lines -> Forall (no_nul ascii) lines) /\
  let st' := fst (update_geofeeds ascii space71 upper71 net71 (100 * day71) web71 linked71 st71) in
  map (places_of st') [1; 2; 3; 4; 5; 6; 12] =
    [places71; []; [a_place (txt "IT")]; [a_place (txt "ES")]; []; []; places71] /\
  map g_status (ge_feeds st') = [None; Some 404%Z; Some 599%Z; None; Some 503%Z; None].
Proof.
  split; [|split; [|split]].
  - split; [|split; [|split]].
    + repeat constructor; vm_compute; intuition discriminate.
    + repeat constructor; vm_compute; intuition discriminate.
    + intros g I1. cbn [st71 ge_feeds In] in I1. cbn [st71 ge_serial].
      repeat (destruct I1 as [<-|I1]; [vm_compute; reflexivity|]). destruct I1.
    + intros r I1. cbn [st71 ge_places In] in I1. cbn [st71 ge_feeds].
      assert (X : existsb (fun g => g_id g =? fst r) (ge_feeds st71) = true)
        by (repeat (destruct I1 as [<-|I1]; [vm_compute; reflexivity|]); destruct I1).
      apply existsb_exists in X as (g & I2 & E). exists g. split; [exact I2|now apply N.eqb_eq].
  - intros s H I1. apply in_map_iff in I1 as (c & E & I1). destruct ((97 <=? c) && (c <=? 122)) eqn:R; [lia|]. subst c. contradiction.
  - intros url I1. assert (F : Forall (no_nul ascii) file71).
    { apply Forall_forall. intros l I2 text D. unfold ascii in D. destruct (forallb _ l); [|discriminate]. injection D as <-.
      assert (X : forallb (fun l => negb (has_nul l)) file71 = true) by (vm_compute; reflexivity).
      rewrite forallb_forall in X. apply X in I2. apply has_nul_iff. now apply negb_true_iff. }
    unfold linked71 in I1. cbn [In] in I1.
    repeat (destruct I1 as [<-|I1]; [split; [vm_compute; discriminate|intros lines E]|]); try destruct I1;
      try (vm_compute in E; discriminate); try (injection E as <-; exact F).
    change (web71 (txt "u4")) with (Answer []) in E. injection E as <-. constructor.
  - split; vm_compute; reflexivity.
Qed.
(** A NUL in a file, or a connection that is lost, keeps the feeds after it from being fetched, and nothing expires *)
Definition two71 : geo := mkGeo [mkG 1 (txt "u1") None None; mkG 2 (txt "u2") None (Some 0%Z)] [(2, a_place (txt "AT"))] 3.
Theorem C71_nul_refuted : exists web line st',
  geo_wf two71 /\ line = txt "1.0.0.0/24,DE," ++ [0] ++ txt ",Hagen" /\ web (txt "u1") = Answer [line] /\ web (txt "u2") = Answer file71 /\
  update_geofeeds ascii space71 upper71 net71 (100 * day71) web [txt "u1"; txt "u2"] two71 = (st', false) /\
  places_of st' 2 = [a_place (txt "AT")] /\ ge_feeds st' = ge_feeds two71.
Proof.
  eexists (fun url => if cstr_eqb url (txt "u1") then _ else Answer file71), _, _.
  split; [|split; [reflexivity|split; [reflexivity|split; [reflexivity|split; [vm_compute; reflexivity|split; vm_compute; reflexivity]]]]].
  split; [|split; [|split]]; try (repeat constructor; vm_compute; intuition discriminate).
  - intros g I1. cbn [two71 ge_feeds In] in I1. repeat (destruct I1 as [<-|I1]; [vm_compute; reflexivity|]). destruct I1.
  - intros r [<-|[]]. exists (mkG 2 (txt "u2") None (Some 0%Z)). split; [right; left|]; reflexivity.
Qed.
Print Assumptions C71_nul_refuted.
Theorem C71_failed_refuted : exists web st',
  web (txt "u1") = Failed /\ web (txt "u2") = Answer file71 /\
  update_geofeeds ascii space71 upper71 net71 (100 * day71) web [txt "u1"; txt "u2"] two71 = (st', false) /\
  places_of st' 2 = [a_place (txt "AT")] /\ ge_feeds st' = ge_feeds two71.
Proof.
  exists (fun url => if cstr_eqb url (txt "u1") then Failed else Answer file71). eexists.
  repeat split; vm_compute; reflexivity.
Qed.
Print Assumptions C71_failed_refuted.
