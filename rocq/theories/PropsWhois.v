(** C75-C77: WHOIS data *)
From Coq Require Import String.
From Coq Require Import NArith ZArith List Bool Lia ZifyBool ZifyNat ZifyN.
From Verif Require Import Base ModelCountryCode ModelStringPool SpecText LemmasStringPool ModelImport SpecImport LemmasImport
  LemmasImportTable LemmasImportProps ModelCompile ModelGeofeed SpecGeofeed LemmasGeofeed ModelOverrides SpecOverrides LemmasOverrides
  ModelFeeds SpecFeeds LemmasFeeds ModelWhois SpecWhois LemmasWhoisTable LemmasWhois LemmasWhoisSource LemmasWhoisProps.
Import ListNotations.
Open Scope N_scope.

Section Whois.
  Variable decode : list N -> cstr.
  Variable decode_strict : list N -> option cstr.
  Variables space digit : N -> bool.
  Variable upper : cstr -> cstr.
  Variable py_int : cstr -> option Z.
  Variable py_log2 : Z -> option Z.
  Variable py_addr : cstr -> option (N * N).
  Variable py_net : cstr -> option pnet.
  Variables is_global is_unspecified : pnet -> bool.
  Variable urlparse : cstr -> option (cstr * cstr).
  Variable py_csv : list (list N) -> option (list arin).
  Variable web : cstr -> option (list (list N)).
  Variable countries : list cstr.
  (** letters are no white space, and S is no digit *)
  Hypothesis Sp : forall c, 97 <= c <= 122 -> space c = false.
  Hypothesis Dg : digit 83 = false.
  (** what ipaddress returns are addresses and networks *)
  Hypothesis Wa : forall s bits a, py_addr s = Some (bits, a) -> (bits = 32 \/ bits = 128) /\ a < 2 ^ bits.
  Hypothesis Wn : forall s n, py_net s = Some n -> net_wf n.
  Notation process_source := (process_source decode decode_strict space digit upper py_int py_log2 py_addr py_net is_global is_unspecified urlparse py_csv web countries).
  Notation importable := (importable decode decode_strict space digit upper py_int py_log2 py_addr py_net is_global is_unspecified urlparse py_csv web countries).
  Notation items_are := (items_are decode space py_csv web).
  Notation readable := (readable decode_strict space digit upper py_int py_log2 py_addr py_net is_global is_unspecified urlparse countries).
  Notation after_as := (SpecWhois.after_as space digit upper py_int).
  Notation after_link := (SpecWhois.after_link space digit py_addr py_net is_global is_unspecified urlparse).
  Notation given_net := (SpecWhois.given_net decode_strict space py_int py_log2 py_addr is_global is_unspecified countries).
  Notation given_row := (SpecWhois.given_row decode_strict space py_int py_log2 py_addr is_global is_unspecified countries).
  Notation rir_net := (SpecWhois.rir_net space digit upper py_addr py_net is_global is_unspecified countries).
  Notation rir_row := (SpecWhois.rir_row space digit upper py_addr py_net is_global is_unspecified countries).
  Notation known_row := (SpecWhois.known_row decode_strict space digit upper py_int py_log2 py_addr py_net is_global is_unspecified countries).
  Notation update_whois := (update_whois decode decode_strict space digit upper py_int py_log2 py_addr py_net is_global is_unspecified urlparse py_csv web countries).

  (** ** C75: a source is imported if all of it can be read, and then ASes have the names of their organisations *)
  Theorem C75_imported : forall source feeds w, (exists w', process_source source feeds w = Some w') <-> importable feeds.
  Proof. exact (source_imported decode decode_strict space digit upper py_int py_log2 py_addr py_net is_global is_unspecified urlparse py_csv web countries Sp Dg). Qed.
  Theorem C75_names : forall source feeds w w', tables_ok w -> process_source source feeds w = Some w' ->
    exists items, items_are feeds items /\ (forall i, In i items -> readable i) /\
      forall z name src, In (z, (name, src)) (w_autnums w') <-> after_as source w items z name src.
  Proof. exact (source_names decode decode_strict space digit upper py_int py_log2 py_addr py_net is_global is_unspecified urlparse py_csv web countries Sp Dg). Qed.

  (** ** C76: networks have the countries of the delegations and of their objects *)
  Theorem C76_networks : forall source feeds w w', tables_ok w -> process_source source feeds w = Some w' ->
    exists items, items_are feeds items /\ (forall i, In i items -> readable i) /\
      (forall n cc all src, given_net source w items n cc all src -> In (n, (cc, all, src)) (w_networks w')) /\
      (forall n cc all src, In (n, (cc, all, src)) (w_networks w') ->
        given_net source w items n cc all src \/ (rir_net items n cc all /\ src = source /\ forall cc' all' src', ~ given_net source w items n cc' all' src')).
  Proof. exact (source_networks decode decode_strict space digit upper py_int py_log2 py_addr py_net is_global is_unspecified urlparse py_csv web countries Sp Dg Wa Wn). Qed.
  (** An address has the country of the smallest network that is known. This supposes that all
      objects have a country; one without is copied only if no network with a country is around it. *)
  Theorem C76_countries_partial : forall source feeds w w', tables_ok w -> process_source source feeds w = Some w' ->
    exists items, items_are feeds items /\ (forall i, In i items -> readable i) /\
      ((forall n cc all, rir_net items n cc all -> cc <> None) ->
       forall bits v c, located (row_in w') bits v c <-> located (known_row source w items) bits v c).
  Proof. exact (source_countries decode decode_strict space digit upper py_int py_log2 py_addr py_net is_global is_unspecified urlparse py_csv web countries Sp Dg Wa Wn). Qed.
  (** Objects are not copied if the network around them has the same country *)
  Theorem C76_less : forall source feeds w w', tables_ok w -> process_source source feeds w = Some w' ->
    exists items, items_are feeds items /\ (forall i, In i items -> readable i) /\
      forall r p, row_in w' r -> ~ given_row source w items r ->
        (exists q, rir_row items q /\ p_bits (r_net q) = p_bits (r_net r) /\ p_len (r_net q) < p_len (r_net r)) ->
        around (row_in w') (r_net r) p -> r_country p = None \/ r_country p <> r_country r.
  Proof. exact (source_less decode decode_strict space digit upper py_int py_log2 py_addr py_net is_global is_unspecified urlparse py_csv web countries Sp Dg Wa Wn). Qed.
  Theorem C76_geofeeds : forall source feeds w w', tables_ok w -> process_source source feeds w = Some w' ->
    exists items, items_are feeds items /\ (forall i, In i items -> readable i) /\
      forall n url src, In (n, url, src) (w_links w') <-> after_link source w items n url src.
  Proof. exact (source_geofeeds decode decode_strict space digit upper py_int py_log2 py_addr py_net is_global is_unspecified urlparse py_csv web countries Sp Dg). Qed.

  (** ** C77: sources are independent of each other *)
  Theorem C77_update : forall wanted w w' code, tables_ok w -> update_whois wanted w = (w', code) -> countries <> [] ->
    (code = 0%Z <-> forall name feeds, In (name, feeds) whois_sources -> asked wanted name -> importable feeds) /\
    ((forall name feeds, In (name, feeds) whois_sources -> asked wanted name -> ~ importable feeds) -> w' = w) /\
    tables_ok w' /\
    (forall src, ~ (In src (map fst whois_sources) /\ asked wanted src) -> others_same w w' src).
  Proof. exact (whois_update decode decode_strict space digit upper py_int py_log2 py_addr py_net is_global is_unspecified urlparse py_csv web countries Sp Dg Wa Wn). Qed.
  Theorem C77_one : forall name feeds w, In (name, feeds) whois_sources -> countries <> [] ->
    (forall w', process_source name feeds w = Some w' -> update_whois [name] w = (w', 0%Z)) /\ (~ importable feeds -> update_whois [name] w = (w, 1%Z)).
  Proof. exact (whois_one decode decode_strict space digit upper py_int py_log2 py_addr py_net is_global is_unspecified urlparse py_csv web countries Sp Dg). Qed.
  Theorem C77_countries : forall wanted w, countries = [] -> update_whois wanted w = (w, 1%Z).
  Proof. exact (whois_no_countries decode decode_strict space digit upper py_int py_log2 py_addr py_net is_global is_unspecified urlparse py_csv web countries). Qed.
End Whois.
Print Assumptions C75_imported.
Print Assumptions C75_names.
Print Assumptions C76_networks.
Print Assumptions C76_countries_partial.
Print Assumptions C76_less.
Print Assumptions C76_geofeeds.
Print Assumptions C77_update.
Print Assumptions C77_one.
Print Assumptions C77_countries.

(** The registries, and what is read of each: a file with everything, or one file for each class of objects
    of which something is used, or a list of delegations with a list of the names of ASes. *)
Theorem C77_sources :
  map fst whois_sources = [txt "AFRINIC"; txt "APNIC"; txt "ARIN"; txt "JPNIC"; txt "LACNIC"; txt "RIPE"] /\
  forall name feeds, In (name, feeds) whois_sources ->
    (exists url, In (Standard, url) feeds /\ ends_with (txt ".db.gz") url) \/
    (forall class, In class [txt "inet6num"; txt "inetnum"; txt "aut-num"; txt "organisation"] ->
       exists url, In (Standard, url) feeds /\ ends_with (txt ".db." ++ class ++ txt ".gz") url) \/
    (exists url url', In (Extended, url) feeds /\ In (ArinNames, url') feeds).
Proof. exact whois_complete. Qed.
Print Assumptions C77_sources.

(** ** A case *)
Definition nl (s : cstr) : cstr := s ++ [10].
Definition space75 (c : N) : bool := (c =? 32) || ((9 <=? c) && (c <=? 13)).
Definition digit75 (c : N) : bool := (48 <=? c) && (c <=? 57).
Definition upper75 (s : cstr) : cstr := map (fun c => if (97 <=? c) && (c <=? 122) then c - 32 else c) s.
Definition int75 (s : cstr) : option Z :=
  match s with [] => None | _ => if forallb digit75 s then Some (Z.of_N (fold_left (fun x c => 10 * x + (c - 48)) s 0)) else None end.
Definition log75 (z : Z) : option Z := if (0 <? z)%Z then Some (Z.log2 z) else None.
Definition addr75 (s : cstr) : option (N * N) :=
  if cstr_eqb s (txt "5.0.0.0") then Some (32, 83886080)
  else if cstr_eqb s (txt "5.0.0.255") then Some (32, 83886335)
  else if cstr_eqb s (txt "5.0.255.255") then Some (32, 83951615)
  else if cstr_eqb s (txt "6.0.0.0") then Some (32, 100663296)
  else if cstr_eqb s (txt "6.0.255.255") then Some (32, 100728831) else None.
Definition net75 (s : cstr) : option pnet := if cstr_eqb s (txt "2a05::/16") then Some (mkP 128 55853537307259140800102549013420572672 16) else None.
Definition global75 (n : pnet) : bool := negb (p_base n =? 167772160).
Definition zero75 (n : pnet) : bool := p_base n =? 0.
Definition url75 (s : cstr) : option (cstr * cstr) := if starts (txt "https://") s then Some (txt "https", s) else Some (txt "http", s).
Definition csv75 (f : list (list N)) : option (list arin) :=
  match f with
  | [s] => Some [mkArin (Some (txt "Full Registry Services")) (Some (txt "Twelve")) (Some (txt "12")) (Some (txt "13"));
                 mkArin (Some (txt "Other")) (Some (txt "Fourteen")) (Some (txt "14")) (Some (txt "14"))]
  | _ => None
  end.
Definition process75 (web : cstr -> option (list (list N))) (countries : list cstr) :=
  process_source (fun s => s) (fun s => Some s) space75 digit75 upper75 int75 log75 addr75 net75 global75 zero75 url75 csv75 web countries.
Definition update75 (web : cstr -> option (list (list N))) (countries : list cstr) :=
  update_whois (fun s => s) (fun s => Some s) space75 digit75 upper75 int75 log75 addr75 net75 global75 zero75 url75 csv75 web countries.

(** the hypotheses hold *)
Example hypotheses75 :
  (forall c, 97 <= c <= 122 -> space75 c = false) /\ digit75 83 = false /\
  (forall s bits a, addr75 s = Some (bits, a) -> (bits = 32 \/ bits = 128) /\ a < 2 ^ bits) /\
  (forall s n, net75 s = Some n -> net_wf n).
Proof.
  split; [unfold space75; lia|]. split; [reflexivity|]. split.
  - intros s bits a H. unfold addr75 in H. repeat (destruct (cstr_eqb s _) in H; [injection H as <- <-; split; [now left|reflexivity]|]). discriminate.
  - intros s n H. unfold net75 in H. destruct (cstr_eqb s _) in H; [|discriminate]. injection H as <-. split; [now right|]. split; [vm_compute; discriminate|]. split; reflexivity.
Qed.

Definition ten75 : list (list N) :=
  map nl [txt "aut-num: AS10"; txt "org: org-a1"; []; txt "organisation: ORG-A1"; txt "org-name: Ten"; [];
          txt "aut-num: as11"; txt "descr: Eleven"; txt "descr: other"; [];
          txt "inetnum: 5.0.0.0 - 5.0.255.255"; txt "country: de"; txt "geofeed: https://a"; [];
          txt "inetnum: 5.0.0.0 - 5.0.0.255"; txt "country: DE"; txt "remarks: Geofeed https://b"; [];
          txt "inet6num: 2a05::/16"; txt "country: ZZ"; txt "country: UK"; txt "country: DE"].
Definition lines75 : list (list N) := map nl [txt "2|arin|1"; txt "arin|US|ipv4|6.0.0.0|256|20120521|allocated|x"].
Definition web75 (url : cstr) : option (list (list N)) :=
  if cstr_eqb url (txt "https://ftp.nic.ad.jp/jpirr/jpirr.db.gz") then Some ten75
  else if cstr_eqb url (txt "https://ftp.arin.net/pub/stats/arin/delegated-arin-extended-latest") then Some lines75
  else if cstr_eqb url (txt "https://ftp.arin.net/pub/resource_registry_service/asns.csv") then Some [txt "csv"]
  else None.
Definition six75 : pnet := mkP 128 55853537307259140800102549013420572672 16.
Definition cc75 : list cstr := [txt "DE"; txt "US"; txt "GB"].
Definition w75 : whois :=
  mkWhois [(10%Z, (txt "Old", txt "RIPE")); (12%Z, (txt "Gone", txt "JPNIC")); (13%Z, (txt "Thirteen", txt "RIPE"))]
          [(mkP 32 83886080 8, (Some (txt "US"), [txt "US"], txt "RIPE")); (mkP 32 5 32, (None, [], txt "JPNIC"))]
          [(mkP 32 83886080 16, txt "https://a", txt "RIPE"); (mkP 32 83886080 24, txt "https://c", txt "JPNIC")].
Example C75_case :
  update75 web75 cc75 [txt "JPNIC"] w75 =
    (mkWhois [(10%Z, (txt "Ten", txt "RIPE")); (13%Z, (txt "Thirteen", txt "RIPE")); (11%Z, (txt "Eleven", txt "JPNIC"))]
             [(mkP 32 83886080 8, (Some (txt "US"), [txt "US"], txt "RIPE")); (mkP 32 83886080 16, (Some (txt "DE"), [txt "DE"], txt "JPNIC"));
              (six75, (Some (txt "GB"), [txt "GB"; txt "DE"], txt "JPNIC"))]
             [(mkP 32 83886080 16, txt "https://a", txt "JPNIC"); (mkP 32 83886080 24, txt "https://b", txt "JPNIC")], 0%Z).
Proof. vm_compute. reflexivity. Qed.
Example C76_case :
  update75 web75 cc75 [txt "ARIN"; txt "RIPE"] w75 =
    (mkWhois [(10%Z, (txt "Old", txt "RIPE")); (12%Z, (txt "Gone", txt "JPNIC")); (13%Z, (txt "Thirteen", txt "RIPE"))]
             [(mkP 32 83886080 8, (Some (txt "US"), [txt "US"], txt "RIPE")); (mkP 32 5 32, (None, [], txt "JPNIC"));
              (mkP 32 100663296 24, (Some (txt "US"), [txt "US"], txt "ARIN"))]
             (w_links w75), 1%Z) /\
  w_autnums (fst (update75 web75 cc75 [txt "ARIN"] (mkWhois [] [] []))) = [(12%Z, (txt "Twelve", txt "ARIN")); (13%Z, (txt "Twelve", txt "ARIN"))].
Proof. split; vm_compute; reflexivity. Qed.
Example C77_case : tables_ok w75 /\ update75 web75 cc75 [txt "RIPE"] w75 = (w75, 1%Z) /\ update75 web75 [] [txt "JPNIC"] w75 = (w75, 1%Z).
Proof.
  split; [|split; vm_compute; reflexivity]. unfold tables_ok, w75. cbn [w_autnums w_networks w_links map fst].
  split; [|split; [|split]]; [repeat constructor; cbn [In]; intros H; decompose [or] H; try discriminate; contradiction..|].
  intros n v [E|[E|[]]]; injection E as <- _; (split; [now left|]; split; [vm_compute; discriminate|]; split; reflexivity).
Qed.

Definition jp75 (f : list cstr) (url : cstr) : option (list (list N)) := Some (map nl f).
Definition none75 : whois := mkWhois [] [] [].
(** One AS with a number of 2^31 or more, or one organisation without a name, keeps all others out *)
Theorem C75_number_refuted : exists good bad f,
  good = [txt "aut-num: AS11"; txt "descr: Eleven"] /\ bad = [txt "aut-num: AS4200000000"; txt "descr: Other"] /\ f = good ++ [] :: bad /\
  update75 (jp75 good) cc75 [txt "JPNIC"] none75 = (mkWhois [(11%Z, (txt "Eleven", txt "JPNIC"))] [] [], 0%Z) /\
  update75 (jp75 f) cc75 [txt "JPNIC"] none75 = (none75, 1%Z).
Proof. do 3 eexists. split; [reflexivity|]. split; [reflexivity|]. split; [reflexivity|]. split; vm_compute; reflexivity. Qed.
Print Assumptions C75_number_refuted.
Theorem C75_org_refuted : exists good bad f,
  good = [txt "aut-num: AS11"; txt "descr: Eleven"] /\ bad = [txt "organisation: ORG-B"] /\ f = good ++ [] :: bad /\
  update75 (jp75 good) cc75 [txt "JPNIC"] none75 = (mkWhois [(11%Z, (txt "Eleven", txt "JPNIC"))] [] [], 0%Z) /\
  update75 (jp75 f) cc75 [txt "JPNIC"] none75 = (none75, 1%Z).
Proof. do 3 eexists. split; [reflexivity|]. split; [reflexivity|]. split; [reflexivity|]. split; vm_compute; reflexivity. Qed.
Print Assumptions C75_org_refuted.
(** Private numbers are imported from objects, though not from ARIN's list *)
Theorem C75_private_refuted : exists f z, ~ public_asn z /\
  update75 (jp75 f) cc75 [txt "JPNIC"] none75 = (mkWhois [(z, (txt "Private", txt "JPNIC"))] [] [], 0%Z).
Proof.
  exists [txt "aut-num: AS64512"; txt "descr: Private"], 64512%Z. split; [|vm_compute; reflexivity].
  unfold public_asn. lia.
Qed.
Print Assumptions C75_private_refuted.
(** An AS that has a description has no name if the object of its organisation is missing *)
Theorem C75_descr_refuted : exists f, f = [txt "aut-num: AS11"; txt "org: ORG-B"; txt "descr: Eleven"] /\
  update75 (jp75 f) cc75 [txt "JPNIC"] none75 = (none75, 0%Z).
Proof. eexists. split; [reflexivity|]. vm_compute. reflexivity. Qed.
Print Assumptions C75_descr_refuted.
(** The country of a network need not be one of those the same row lists *)
Theorem C76_list_refuted : exists f n, f = [txt "inetnum: 5.0.0.0 - 5.0.0.255"; txt "country: DE"; []; txt "inetnum: 5.0.0.0 - 5.0.0.255"; txt "country: US"] /\
  update75 (jp75 f) cc75 [txt "JPNIC"] none75 = (mkWhois [] [(n, (Some (txt "US"), [txt "DE"], txt "JPNIC"))] [], 0%Z).
Proof. do 2 eexists. split; [reflexivity|]. vm_compute. reflexivity. Qed.
Print Assumptions C76_list_refuted.
(** A network that cannot be parsed keeps all others out, if it is IPv6 *)
Theorem C76_six_refuted : exists good four six,
  good = [txt "inetnum: 5.0.0.0 - 5.0.0.255"; txt "country: DE"] /\ four = [[]; txt "inetnum: bad"; txt "country: US"] /\ six = [[]; txt "inet6num: bad"; txt "country: US"] /\
  w_networks (fst (update75 (jp75 (good ++ four)) cc75 [txt "JPNIC"] none75)) = [(mkP 32 83886080 24, (Some (txt "DE"), [txt "DE"], txt "JPNIC"))] /\
  w_networks (fst (update75 (jp75 (good ++ six)) cc75 [txt "JPNIC"] none75)) = [].
Proof. do 3 eexists. split; [reflexivity|]. split; [reflexivity|]. split; [reflexivity|]. split; vm_compute; reflexivity. Qed.
Print Assumptions C76_six_refuted.
(** Rows of a source that is not updated can change: their name, their country, and geofeeds that go over to another source *)
Theorem C77_others_refuted : exists f w w', f = [txt "aut-num: AS10"; txt "descr: Other"] /\
  w_autnums w = [(10%Z, (txt "Ten", txt "RIPE"))] /\ update75 (jp75 f) cc75 [txt "JPNIC"] w = (w', 0%Z) /\
  w_autnums w' = [(10%Z, (txt "Other", txt "RIPE"))].
Proof. exists [txt "aut-num: AS10"; txt "descr: Other"], (mkWhois [(10%Z, (txt "Ten", txt "RIPE"))] [] []). eexists. split; [reflexivity|]. split; [reflexivity|]. split; vm_compute; reflexivity. Qed.
Print Assumptions C77_others_refuted.
(** What a source says can get lost: its network is not copied because one of another source is around it, which is then gone *)
Theorem C77_lost_refuted : exists f w w1 w2 w3 n,
  update75 (jp75 f) cc75 [txt "JPNIC"] w = (w1, 0%Z) /\ update75 (jp75 []) cc75 [txt "RIPE"] w1 = (w2, 0%Z) /\
  update75 (jp75 f) cc75 [txt "JPNIC"] w2 = (w3, 0%Z) /\ ~ In n (map fst (w_networks w2)) /\ In (n, (Some (txt "DE"), [txt "DE"], txt "JPNIC")) (w_networks w3).
Proof.
  exists [txt "inetnum: 6.0.0.0 - 6.0.255.255"; txt "country: US"; []; txt "inetnum: 5.0.0.0 - 5.0.0.255"; txt "country: DE"],
    (mkWhois [] [(mkP 32 83886080 8, (Some (txt "DE"), [txt "DE"], txt "RIPE"))] []).
  do 3 eexists. exists (mkP 32 83886080 24). split; [vm_compute; reflexivity|]. split; [vm_compute; reflexivity|]. split; [vm_compute; reflexivity|].
  cbn [w_networks map fst In]. split; [intros H; decompose [or] H; discriminate || contradiction|]. right. now left.
Qed.
Print Assumptions C77_lost_refuted.
