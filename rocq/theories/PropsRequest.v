(** C82: what the downloader asks for, and what it makes of the answers *)
From Coq Require Import String.
From Coq Require Import NArith ZArith List Bool Arith Lia.
From Verif Require Import Base ModelCountryCode ModelStringPool SpecText SpecResolv SpecUpdate ModelRequest SpecRequest LemmasRequest.
Import ListNotations.
Open Scope N_scope.

(** For all programs: every request asks for the address that was given with exactly the
    headers that were given and the name of the program; those to mirrors have the time, as
    a date, if there is one. No call changes the headers of another one, although the
    default value of the headers is a dictionary that is changed. *)
Theorem C82_requests : forall parse urljoin version environ l, Forall (call_fine parse urljoin) l ->
  Forall2 (as_it_should urljoin version) l (calls parse urljoin version (get_proxies environ) [] l).
Proof. exact (fun parse urljoin version environ l F => all_calls parse urljoin version (get_proxies environ) l F [] (or_introl eq_refl)). Qed.
Print Assumptions C82_requests.

(** Missing: both variables are set *)
Theorem C82_https_partial : forall parse urljoin version environ url h s hs d r, parse url = Some (txt "https", h, s) ->
  make_request parse urljoin version (get_proxies environ) url None hs = (d, Some r) ->
  (unset_in environ (txt "https_proxy") \/ unset_in environ (txt "http_proxy")) ->
  scheme r = txt "https" /\ selector r = s /\
  (unset_in environ (txt "https_proxy") -> unset_in environ (txt "http_proxy") -> host r = h /\ tunnel r = []) /\
  (forall name p, In name [txt "https_proxy"; txt "http_proxy"] -> p <> [] -> environ name = Some p -> host r = p /\ tunnel r = h).
Proof. exact encrypted. Qed.
Print Assumptions C82_https_partial.
(** With both, all requests for https are made with http. *)
Theorem C82_https_refuted : forall parse urljoin version environ url h s hs d r, h <> [] -> parse url = Some (txt "https", h, s) ->
  make_request parse urljoin version (get_proxies environ) url None hs = (d, Some r) ->
  set_in environ (txt "https_proxy") -> set_in environ (txt "http_proxy") -> scheme r = txt "http".
Proof. exact not_encrypted. Qed.
Print Assumptions C82_https_refuted.

(** Whatever pieces the answer comes in, the file is read as it was before it was compressed. *)
Theorem C82_retrieve : forall gunzip compress x, (forall y, gunzip (compress y) = Some y /\ magic (compress y)) ->
  forall pieces ct, Forall (fun p => p <> []) pieces ->
  (concat pieces = compress x \/ concat pieces = x /\ ~ magic x /\ ~ gzip_type ct) -> read gunzip (retrieve pieces ct) = Some x.
Proof. exact served. Qed.
Print Assumptions C82_retrieve.
(** The type alone decides, even if the file was not compressed. *)
Theorem C82_type_refuted : forall gunzip, (forall y, ~ magic y -> gunzip y = None) -> forall pieces ct, Forall (fun p => p <> []) pieces ->
  gzip_type ct -> ~ magic (concat pieces) -> read gunzip (retrieve pieces ct) = None.
Proof. exact (fun gunzip G pieces ct F T M => eq_trans (proj1 (retrieved gunzip pieces ct F) (or_introl T)) (G _ M)). Qed.
Print Assumptions C82_type_refuted.

(** ** Cases *)
Definition parse0 (u : cstr) : option (cstr * cstr * cstr) :=
  if cstr_eqb (firstn 8 u) (txt "https://") then Some (txt "https", firstn 6 (skipn 8 u), skipn 14 u) else None.
Definition join0 (a b : cstr) : cstr := a ++ b.
Definition program0 : list call :=
  [Retrieve (txt "https://a.test/feed") None; Download 1709203330 3 [txt "https://m.test/"; txt "https://n.test/"];
   Retrieve (txt "https://b.test/") (Some [(txt "Accept", txt "text/csv"); (txt "user-agent", txt "x")]); Retrieve (txt "https://a.test/feed") None; Download 0 0 [txt "https://m.test/"]].
Example C82_case : Forall (call_fine parse0 join0) [Retrieve (txt "https://a.test/feed") None; Download 1709203330 3 [txt "https://m.test/"; txt "https://n.test/"];
   Retrieve (txt "https://b.test/") (Some [(txt "Accept", txt "text/csv"); (txt "user-agent", txt "x")])] /\
  map (map (fun r => (full_url r, headers r))) (calls parse0 join0 (txt "0") [] [] program0) =
   [[(txt "https://a.test/feed", [(txt "User-agent", txt "location/0")])];
    [(txt "https://m.test/1/location.db.xz", [(txt "If-modified-since", txt "Thu, 29 Feb 2024 10:42:10 GMT"); (txt "User-agent", txt "location/0")]);
     (txt "https://n.test/1/location.db.xz", [(txt "If-modified-since", txt "Thu, 29 Feb 2024 10:42:10 GMT"); (txt "User-agent", txt "location/0")])];
    [(txt "https://b.test/", [(txt "Accept", txt "text/csv"); (txt "User-agent", txt "location/0")])];
    [(txt "https://a.test/feed", [(txt "User-agent", txt "location/0")])];
    [(txt "https://m.test/1/location.db.xz", [(txt "User-agent", txt "location/0")])]].
Proof.
  split; [|vm_compute; reflexivity]. constructor; [split; [vm_compute; discriminate|exact Logic.I]|]. constructor.
  - split; [reflexivity|]. split; [lia|]. intros m [<-|[<-|[]]]; split; vm_compute; discriminate.
  - constructor; [|constructor]. split; [vm_compute; discriminate|]. constructor; [intros [H|[]]; vm_compute in H; discriminate|]. constructor; [intros []|constructor].
Qed.
(** An environment with one and with both variables *)
Definition one (name : cstr) : option cstr := if cstr_eqb name (txt "http_proxy") then Some (txt "proxy:3128") else None.
Definition both (name : cstr) : option cstr := Some (txt "proxy:3128").
Example C82_https_case : parse0 (txt "https://a.test/feed") = Some (txt "https", txt "a.test", txt "/feed") /\
  unset_in one (txt "https_proxy") /\ set_in both (txt "https_proxy") /\ set_in both (txt "http_proxy") /\
  option_map (fun r => (scheme r, host r, tunnel r, selector r)) (snd (make_request parse0 join0 [] (get_proxies one) (txt "https://a.test/feed") None [])) =
    Some (txt "https", txt "proxy:3128", txt "a.test", txt "/feed") /\
  option_map (fun r => (scheme r, host r, tunnel r, selector r)) (snd (make_request parse0 join0 [] (get_proxies both) (txt "https://a.test/feed") None [])) =
    Some (txt "http", txt "proxy:3128", txt "a.test", txt "https://a.test/feed").
Proof.
  split; [vm_compute; reflexivity|]. split; [left; vm_compute; reflexivity|]. split; [do 2 eexists; reflexivity|]. split; [do 2 eexists; reflexivity|].
  split; vm_compute; reflexivity.
Qed.
(** compression that only puts the magic in front *)
Definition compress0 (y : list N) : list N := 31 :: 139 :: y.
Definition gunzip0 (y : list N) : option (list N) := match y with 31 :: 139 :: y => Some y | _ => None end.
Example C82_retrieve_case : (forall y, gunzip0 (compress0 y) = Some y /\ magic (compress0 y)) /\ (forall y, ~ magic y -> gunzip0 y = None) /\
  read gunzip0 (retrieve [[31]; [139; 7]; [8]] (Some (txt "text/csv"))) = Some [7; 8] /\ read gunzip0 (retrieve [[7]; [8]] None) = Some [7; 8] /\
  read gunzip0 (retrieve [[7]; [8]] (Some (txt "application/gzip"))) = None.
Proof.
  split; [intros y; split; [reflexivity|now exists y]|]. split; [|repeat split].
  intros y H. destruct y as [|a [|b y]]; [reflexivity|cbn; destruct a as [|p]; [reflexivity|]; do 5 (destruct p as [p|p|]; try reflexivity)|].
  destruct (N.eq_dec a 31) as [->|A]; [destruct (N.eq_dec b 139) as [->|B]; [destruct H; now exists y|]|].
  - cbn. destruct b as [|p]; [reflexivity|]. do 8 (destruct p as [p|p|]; try reflexivity). now destruct B.
  - cbn. destruct a as [|p]; [reflexivity|]. do 5 (destruct p as [p|p|]; try reflexivity). now destruct A.
Qed.
