(** Model of the requests of the downloader, and of what it makes of the answers:
    src/python/location/downloader.py, with urllib.request.Request of Python 3.11 (the
    handlers of urlopen are not modelled; ProxyHandler calls set_proxy again). *)
From Coq Require Import String.
From Coq Require Import NArith ZArith List Bool Arith.
From Verif Require Import Base ModelCountryCode ModelStringPool ModelText SpecText ModelDownload ModelUpdate.
Import ListNotations.
Open Scope N_scope.

(** Dictionaries keep the order of the keys. *)
Definition dict := list (cstr * cstr).
Fixpoint put (d : dict) (k v : cstr) : dict :=
  match d with
  | [] => [(k, v)]
  | (k', v') :: d' => if cstr_eqb k' k then (k', v) :: d' else (k', v') :: put d' k v
  end.
Fixpoint get (d : dict) (k : cstr) : option cstr :=
  match d with
  | [] => None
  | (k', v') :: d' => if cstr_eqb k' k then Some v' else get d' k
  end.

(** str.capitalize, for ASCII *)
Definition upper (c : N) : N := if (97 <=? c) && (c <=? 122) then c - 32 else c.
Definition lower (c : N) : N := if (65 <=? c) && (c <=? 90) then c + 32 else c.
Definition capitalize (s : cstr) : cstr := match s with [] => [] | c :: s' => upper c :: map lower s' end.

(** urllib.request.Request; no tunnel is [] *)
Record request := mkRequest { full_url : cstr; scheme : cstr; host : cstr; tunnel : cstr; selector : cstr; headers : dict }.
(** Request.set_proxy *)
Definition set_proxy (r : request) (h t : cstr) : request :=
  if cstr_eqb (scheme r) (txt "https") && match tunnel r with [] => true | _ => false end
  then mkRequest (full_url r) (scheme r) h (host r) (selector r) (headers r)
  else mkRequest (full_url r) t h (tunnel r) (full_url r) (headers r).
(** Request.add_header *)
Definition add_header (r : request) (k v : cstr) : request :=
  mkRequest (full_url r) (scheme r) (host r) (tunnel r) (selector r) (put (headers r) (capitalize k) v).

(** downloader.py:55-64 _get_proxies *)
Definition get_proxies (environ : cstr -> option cstr) : dict :=
  flat_map (fun protocol => match environ (protocol ++ txt "_proxy") with Some (c :: s) => [(protocol, c :: s)] | _ => [] end)
    [txt "https"; txt "http"].

Section Requests.
  (** Request._parse: the scheme, the host and the rest, or ValueError *)
  Variable parse : cstr -> option (cstr * cstr * cstr).
  Variable urljoin : cstr -> cstr -> cstr.
  (** __version__ *)
  Variable version : cstr.
  Variable proxies : dict.

  (** downloader.py:66-86 _make_request: the dictionary [hs] is changed; None is ValueError *)
  Definition make_request (url : cstr) (baseurl : option cstr) (hs : dict) : dict * option request :=
    let url := match baseurl with Some (c :: s) => urljoin (c :: s) url | _ => url end in
    match parse url with
    | None => (hs, None)
    | Some (t, h, s) =>
        let hs := put hs (txt "User-Agent") (txt "location/" ++ version) in
        let r := fold_left (fun r x => add_header r (fst x) (snd x)) hs (mkRequest url t h [] s []) in
        (hs, Some (fold_left (fun r x => set_proxy r (snd x) (fst x)) proxies r))
    end.

  (** downloader.py:114-130 in download: the requests to the mirrors that are asked, all with the
      same dictionary *)
  Definition database_url : cstr := txt "1/location.db.xz".
  Fixpoint ask (hs : dict) (mirrors : list cstr) : list request :=
    match mirrors with
    | [] => []
    | m :: mirrors' =>
        match make_request database_url (Some m) hs with
        | (hs, Some r) => r :: ask hs mirrors'
        | (_, None) => []
        end
    end.
  (** [timestamp] is 0 for None; gmtime and strftime (ModelUpdate) need [years] steps *)
  Definition download_requests (timestamp : N) (years : nat) (mirrors : list cstr) : list request :=
    if timestamp =? 0 then ask [] mirrors
    else match time_text (Z.of_N timestamp) years with
         | Some s => ask (put [] (txt "If-Modified-Since") s) mirrors
         | None => []
         end.

  (** Calls of a program: retrieve with or without headers, and download *)
  Inductive call := Retrieve (url : cstr) (hs : option dict) | Download (timestamp : N) (years : nat) (mirrors : list cstr).
  (** [default] is the dictionary that is the default value of headers; it is made
      once, and every call that uses it changes it *)
  Fixpoint calls (default : dict) (l : list call) : list (list request) :=
    match l with
    | [] => []
    | Retrieve url hs :: l' =>
        let x := make_request url None (match hs with Some hs => hs | None => default end) in
        (match snd x with Some r => [r] | None => [] end) :: calls (match hs with Some _ => default | None => fst x end) l'
    | Download t years mirrors :: l' => download_requests t years mirrors :: calls default l'
    end.
End Requests.

(** What retrieve returns: the file, or a GzipFile that reads it *)
Inductive handle := Raw (f : list N) | Gz (f : list N).
(** downloader.py:227-233: the answer is written to the temporary file in pieces *)
Fixpoint fill (t : file) (pieces : list (list N)) : file :=
  match pieces with
  | [] => t
  | p :: pieces' => if (length p =? 0)%nat then t else fill (fwrite t p) pieces'
  end.
(** downloader.py:218-265 retrieve, after the request was sent *)
Definition retrieve (pieces : list (list N)) (content_type : option cstr) : handle :=
  let t := content (fill (mkFile [] 0) pieces) in
  if match content_type with Some s => cstr_eqb s (txt "application/x-gzip") || cstr_eqb s (txt "application/gzip") | None => false end
  then Gz t
  else if cstr_eqb (firstn 2 t) [31; 139] then Gz t
  else Raw t.
(** Reading everything from it; gunzip fails for what is not compressed *)
Definition read (gunzip : list N -> option (list N)) (h : handle) : option (list N) :=
  match h with Raw f => Some f | Gz f => gunzip f end.
