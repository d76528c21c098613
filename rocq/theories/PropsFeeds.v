(** C74: feeds *)
From Coq Require Import String.
From Coq Require Import NArith ZArith List Bool Lia ZifyBool ZifyNat ZifyN.
From Verif Require Import Base ModelCountryCode ModelStringPool SpecText LemmasStringPool ModelImport SpecImport
  LemmasImportTable ModelCompile ModelGeofeed SpecGeofeed LemmasGeofeed ModelOverrides SpecOverrides LemmasOverrides
  ModelFeeds SpecFeeds LemmasFeeds.
Import ListNotations.
Open Scope N_scope.

(** ** C74: the rows of each source are those of its feed, or those from before *)
Theorem C74_update : forall decode space py_net py_net_int is_global is_unspecified py_json py_json_file web wanted st st' code,
  update_feeds decode space py_net py_net_int is_global is_unspecified py_json py_json_file web wanted st = (st', code) ->
  let gets := gets decode space py_net py_net_int is_global is_unspecified py_json py_json_file web in
  (forall name, (forall url, ~ In (name, url) sources) -> rows_are st' name [] []) /\
  (forall name url, In (name, url) sources -> ~ asked wanted name -> same_rows st st' name) /\
  (forall name url, In (name, url) sources -> asked wanted name ->
    (exists nets ases, gets name url nets ases /\ rows_are st' name nets ases) \/
    ((forall nets ases, ~ gets name url nets ases) /\ same_rows st st' name)) /\
  (code = 0%Z <-> forall name url, In (name, url) sources -> asked wanted name -> exists nets ases, gets name url nets ases).
Proof. exact feeds_updated. Qed.
Print Assumptions C74_update.

(** lines end with a newline *)
Definition nl (s : cstr) : cstr := s ++ [10].
Definition space74 (c : N) : bool := (c =? 32) || ((9 <=? c) && (c <=? 13)).
Definition net74 (s : cstr) : option pnet :=
  if cstr_eqb s (txt "1.0.0.0/24") then Some (mkP 32 16777216 24)
  else if cstr_eqb s (txt "5.0.0.0/8") then Some (mkP 32 83886080 8)
  else if cstr_eqb s (txt "10.0.0.0/8") then Some (mkP 32 167772160 8)
  else if cstr_eqb s (txt "2a05::/16") then Some (mkP 128 55853537307259140800102549013420572672 16) else None.
Definition int74 (z : Z) : option pnet := if (0 <=? z)%Z then Some (mkP 32 (Z.to_N z) 32) else None.
Definition global74 (n : pnet) : bool := negb (p_base n =? 167772160).
Definition zero74 (n : pnet) : bool := p_base n =? 0.
(** three of the lines are JSON *)
Definition json74 (s : cstr) : option json :=
  if cstr_eqb s (nl (txt "{asn:13335}")) then Some (JObj [(txt "asn", JInt 13335); (txt "cc", JStr (txt "US"))])
  else if cstr_eqb s (nl (txt "{asn:64512}")) then Some (JObj [(txt "asn", JInt 64512)])
  else if cstr_eqb s (nl (txt "{type:metadata}")) then Some (JObj [(txt "type", JStr (txt "metadata"))]) else None.
Definition aws74 (six four : list json) : json := JObj [(txt "syncToken", JStr (txt "1")); (txt "prefixes", JList four); (txt "ipv6_prefixes", JList six)].
Definition v4 (net region : cstr) : json := JObj [(txt "ip_prefix", JStr net); (txt "region", JStr region); (txt "service", JStr (txt "S3"))].
Definition v6 (net region : cstr) : json := JObj [(txt "ipv6_prefix", JStr net); (txt "region", JStr region)].
Definition awsfile74 (f : list (list N)) : option json :=
  match f with
  | [s] => if cstr_eqb s (txt "good") then
             Some (aws74 [v6 (txt "2a05::/16") (txt "GLOBAL")] [v4 (txt "1.0.0.0/24") (txt "eu-central-1"); v4 (txt "1.0.0.0/24") (txt "us-east-1");
               v4 (txt "5.0.0.0/8") (txt "us-east-1"); v4 (txt "10.0.0.0/8") (txt "eu-central-1")])
           else if cstr_eqb s (txt "bad") then Some (aws74 [] [v4 (txt "1.0.0.0/24") (txt "eu-central-1"); v4 (txt "1.0.0.1/24") (txt "us-east-1")]) else None
  | _ => None
  end.
Definition update74 (web : cstr -> option (list (list N))) := update_feeds (fun s => Some s) space74 net74 int74 global74 zero74 json74 awsfile74 web.
Definition web74 (url : cstr) : option (list (list N)) :=
  if cstr_eqb url (txt "https://ip-ranges.amazonaws.com/ip-ranges.json") then Some [txt "good"]
  else if cstr_eqb url (txt "https://www.spamhaus.org/drop/drop.txt") then
    Some [nl (txt "; DROP"); nl (txt "1.0.0.0/24 ; SBL1"); nl (txt "nothing"); nl (txt "10.0.0.0/8")]
  else if cstr_eqb url (txt "https://www.spamhaus.org/drop/asndrop.json") then Some [nl (txt "{asn:64512}"); nl (txt "{asn:13335}"); nl (txt "{type:metadata}")]
  else None.
Definition drop74 : attrs := mkAttrs None None None None (Some true).
Definition st74 : feeds :=
  mkFeeds [(mkP 32 83886080 8, txt "SPAMHAUS-DROP", drop74); (mkP 128 5 128, txt "SPAMHAUS-DROPV6", drop74); (mkP 32 5 32, txt "OLD", drop74)]
          [(5%Z, txt "SPAMHAUS-ASNDROP", drop74); (6%Z, txt "OLD", drop74)].
Definition at74 (cc : option cstr) (anycast : bool) : attrs := mkAttrs cc None None (Some anycast) None.
Example C74_case :
  update74 web74 [] st74 =
    (mkFeeds [(mkP 128 5 128, txt "SPAMHAUS-DROPV6", drop74);
              (mkP 128 55853537307259140800102549013420572672 16, txt "AWS-IP-RANGES", at74 None true);
              (mkP 32 16777216 24, txt "AWS-IP-RANGES", at74 (Some (txt "DE")) false);
              (mkP 32 83886080 8, txt "AWS-IP-RANGES", at74 (Some (txt "US")) false);
              (mkP 32 16777216 24, txt "SPAMHAUS-DROP", drop74)]
             [(13335%Z, txt "SPAMHAUS-ASNDROP", drop74)], 1%Z) /\
  update74 web74 [txt "SPAMHAUS-DROP"] st74 =
    (mkFeeds [(mkP 128 5 128, txt "SPAMHAUS-DROPV6", drop74); (mkP 32 16777216 24, txt "SPAMHAUS-DROP", drop74)]
             [(5%Z, txt "SPAMHAUS-ASNDROP", drop74)], 0%Z).
Proof. split; vm_compute; reflexivity. Qed.

(** Where the regions of AWS are, as AWS documents them ("AWS Regions and Availability Zones") *)
Definition documented : list (cstr * cstr) :=
  map (fun x => (txt (fst x), txt (snd x)))
    [("af-south-1", "ZA"); ("ap-east-1", "HK"); ("ap-northeast-1", "JP"); ("ap-northeast-2", "KR"); ("ap-northeast-3", "JP"); ("ap-south-1", "IN");
     ("ap-south-2", "IN"); ("ap-southeast-1", "SG"); ("ap-southeast-2", "AU"); ("ap-southeast-3", "ID"); ("ap-southeast-4", "AU"); ("ap-southeast-5", "MY");
     ("ap-southeast-6", "NZ"); ("ap-southeast-7", "TH"); ("ca-central-1", "CA"); ("ca-west-1", "CA"); ("eu-central-1", "DE"); ("eu-central-2", "CH");
     ("eu-north-1", "SE"); ("eu-south-1", "IT"); ("eu-south-2", "ES"); ("eu-west-1", "IE"); ("eu-west-2", "GB"); ("eu-west-3", "FR");
     ("il-central-1", "IL"); ("me-central-1", "AE"); ("me-south-1", "BH"); ("mx-central-1", "MX"); ("sa-east-1", "BR"); ("eusc-de-east-1", "DE");
     ("us-east-1", "US"); ("us-east-2", "US"); ("us-west-1", "US"); ("us-west-2", "US"); ("us-gov-east-1", "US"); ("us-gov-west-1", "US");
     ("cn-north-1", "CN"); ("cn-northwest-1", "CN")]%string.
(** Networks of a documented region get its country, but for three regions. *)
Theorem C74_regions_partial : forall region cc, In (region, cc) documented ->
  (exists cc', region_is region (Some cc') false) /\
  (~ In region odd_regions -> forall cc' anycast, region_is region cc' anycast -> cc' = Some cc /\ anycast = false).
Proof. apply (regions_right documented). vm_compute. reflexivity. Qed.
Print Assumptions C74_regions_partial.
(** Jakarta is not in Malaysia. *)
Theorem C74_regions_refuted : exists region, In (region, txt "ID") documented /\ region_is region (Some (txt "MY")) false.
Proof. exists (txt "ap-southeast-3"). split; [vm_compute; tauto|]. apply region_listed. vm_compute. tauto. Qed.
Print Assumptions C74_regions_refuted.

(** One network that cannot be parsed keeps all others of AWS out, the code to skip it has a misspelt name *)
Theorem C74_aws_refuted : exists good bad web st,
  good = v4 (txt "1.0.0.0/24") (txt "eu-central-1") /\ bad = v4 (txt "1.0.0.1/24") (txt "us-east-1") /\
  aws_entry net74 int74 global74 zero74 good (mkP 32 16777216 24) (at74 (Some (txt "DE")) false) /\
  (forall url, web url = Some [txt "bad"]) /\ awsfile74 [txt "bad"] = Some (aws74 [] [good; bad]) /\
  fd_networks st = [] /\ fd_networks (fst (update74 web [txt "AWS-IP-RANGES"] st)) = [].
Proof.
  exists (v4 (txt "1.0.0.0/24") (txt "eu-central-1")), (v4 (txt "1.0.0.1/24") (txt "us-east-1")), (fun _ => Some [txt "bad"]), (mkFeeds [] []).
  split; [reflexivity|]. split; [reflexivity|]. split; [apply aws_row; vm_compute; reflexivity|]. split; [reflexivity|]. split; [reflexivity|].
  split; [reflexivity|]. vm_compute. reflexivity.
Qed.
Print Assumptions C74_aws_refuted.
(** A feed of an empty line, or no line at all, is taken for one, and what was there is gone *)
Theorem C74_empty_refuted : exists web st,
  (forall url, web url = Some [[10]] \/ web url = Some []) /\
  In (mkP 32 83886080 8, txt "SPAMHAUS-DROP", drop74) (fd_networks st) /\ In (5%Z, txt "SPAMHAUS-ASNDROP", drop74) (fd_autnums st) /\
  update74 web [txt "SPAMHAUS-DROP"; txt "SPAMHAUS-ASNDROP"] st = (mkFeeds [] [], 0%Z).
Proof.
  exists (fun url => if cstr_eqb url (txt "https://www.spamhaus.org/drop/drop.txt") then Some [[10]] else Some []),
    (mkFeeds [(mkP 32 83886080 8, txt "SPAMHAUS-DROP", drop74)] [(5%Z, txt "SPAMHAUS-ASNDROP", drop74)]).
  split; [intros url; destruct (cstr_eqb url _); [now left|now right]|]. split; [now left|]. split; [now left|]. vm_compute. reflexivity.
Qed.
Print Assumptions C74_empty_refuted.
(** A network that is listed twice keeps the feed from being used *)
Theorem C74_twice_refuted : exists line web,
  line = nl (txt "1.0.0.0/24") /\ (forall url, web url = Some [line; line]) /\
  drop_net (fun s => Some s) space74 net74 global74 zero74 line (mkP 32 16777216 24) /\
  update74 web [txt "SPAMHAUS-DROP"] (mkFeeds [] []) = (mkFeeds [] [], 1%Z).
Proof.
  exists (nl (txt "1.0.0.0/24")), (fun _ => Some [nl (txt "1.0.0.0/24"); nl (txt "1.0.0.0/24")]). split; [reflexivity|]. split; [reflexivity|].
  split; [apply drop_row; vm_compute; reflexivity|]. vm_compute. reflexivity.
Qed.
Print Assumptions C74_twice_refuted.
