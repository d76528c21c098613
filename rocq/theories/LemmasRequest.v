(** Requests *)
From Coq Require Import String.
From Coq Require Import NArith ZArith List Bool Arith Lia ZifyBool ZifyNat ZifyN.
From Verif Require Import Base ModelCountryCode ModelStringPool LemmasStringPool ModelText SpecText ModelDownload ModelUpdate SpecResolv SpecUpdate LemmasGmtime ModelRequest SpecRequest.
Import ListNotations.
Open Scope N_scope.

Lemma get_put d k v x : get (put d k v) x = if cstr_eqb k x then Some v else get d x.
Proof.
  induction d as [|[k' v'] d IH]; cbn [put get]; [reflexivity|]. destruct (cstr_eqb k' k) eqn:E; cbn [get].
  - apply cstr_eqb_eq in E. subst k'. now destruct (cstr_eqb k x).
  - rewrite IH. destruct (cstr_eqb k' x) eqn:E1; [|reflexivity]. destruct (cstr_eqb k x) eqn:E2; [|reflexivity].
    apply cstr_eqb_eq in E1, E2. assert (cstr_eqb k' k = true) by (apply cstr_eqb_eq; congruence). congruence.
Qed.
Lemma fold_same (P : request -> request -> Prop) (f : request -> cstr * cstr -> request) : (forall r, P r r) -> (forall a b c, P a b -> P b c -> P a c) -> (forall r x, P r (f r x)) ->
  forall l r, P r (fold_left f l r).
Proof. intros R0 T0 S0. induction l as [|x l IH]; intros r; cbn [fold_left]; [apply R0|]. eapply T0; [apply S0|apply IH]. Qed.
Lemma add_same l r : let r' := fold_left (fun r x => add_header r (fst x) (snd x)) l r in
  full_url r' = full_url r /\ scheme r' = scheme r /\ host r' = host r /\ tunnel r' = tunnel r /\ selector r' = selector r.
Proof.
  revert r. induction l as [|x l IH]; intros r; cbn [fold_left]; [repeat split|]. destruct (IH (add_header r (fst x) (snd x))) as (A & B & C & D & E). repeat split; assumption.
Qed.
Lemma proxy_same l r : let r' := fold_left (fun r x => set_proxy r (snd x) (fst x)) l r in full_url r' = full_url r /\ headers r' = headers r.
Proof.
  revert r. induction l as [|x l IH]; intros r; cbn [fold_left]; [repeat split|]. destruct (IH (set_proxy r (snd x) (fst x))) as (A & B). cbv zeta. rewrite A, B.
  unfold set_proxy. destruct (_ && _); split; reflexivity.
Qed.
(** the last value of a key wins *)
Fixpoint last_of (l : dict) (k : cstr) : option cstr :=
  match l with
  | [] => None
  | (k', v) :: l' => match last_of l' k with Some v' => Some v' | None => if cstr_eqb (capitalize k') k then Some v else None end
  end.
Lemma added l r k : get (headers (fold_left (fun r x => add_header r (fst x) (snd x)) l r)) k = match last_of l k with Some v => Some v | None => get (headers r) k end.
Proof.
  revert r. induction l as [|[k' v] l IH]; intros r; cbn [fold_left last_of]; [reflexivity|]. rewrite IH. destruct (last_of l k); [reflexivity|].
  unfold add_header. cbn [headers fst snd]. rewrite get_put. now destruct (cstr_eqb (capitalize k') k).
Qed.

Section Requests.
  Variable parse : cstr -> option (cstr * cstr * cstr).
  Variable urljoin : cstr -> cstr -> cstr.
  Variable version : cstr.
  Variable proxies : dict.
  Notation ua := (ua version).
  Notation only_agent := (only_agent version).
  Notation agent_since := (agent_since version).
  Notation agent_and := (agent_and version).
  Notation to_mirror := (to_mirror urljoin).
  Notation as_it_should := (as_it_should urljoin version).
  Notation call_fine := (call_fine parse urljoin).
  Notation make := (make_request parse urljoin version proxies).

  Lemma made url base hs : let u := match base with Some (c :: s) => urljoin (c :: s) url | _ => url end in
    (parse u = None -> make url base hs = (hs, None)) /\
    (parse u <> None -> exists r, make url base hs = (put hs (txt "User-Agent") ua, Some r) /\ full_url r = u /\
       forall k, get (headers r) k = last_of (put hs (txt "User-Agent") ua) k).
  Proof.
    cbv zeta. unfold make_request. split; intros P; [now rewrite P|]. destruct (parse _) as [[[t h] s]|]; [|easy]. eexists. split; [reflexivity|].
    destruct (proxy_same proxies (fold_left (fun r x => add_header r (fst x) (snd x)) (put hs (txt "User-Agent") ua)
       (mkRequest (match base with Some (c :: s0) => urljoin (c :: s0) url | _ => url end) t h [] s []))) as [A B]. cbv zeta in A, B.
    split.
    - unfold ua in A. rewrite A. apply add_same.
    - intros k. unfold ua in B. rewrite B, added. cbn [headers get]. now destruct (last_of _ k).
  Qed.

  (** The default dictionary *)
  Definition default_ok (d : dict) : Prop := d = [] \/ d = [(txt "User-Agent", ua)].
  Lemma default_made d url : default_ok d -> (parse url <> None -> exists r, make url None d = ([(txt "User-Agent", ua)], Some r) /\ full_url r = url /\ with_headers r only_agent).
  Proof.
    intros D P. destruct (made url None d) as [_ M]. cbv zeta in M. destruct (M P) as (r & E & F & H). exists r. split; [|split; [exact F|]].
    - rewrite E. destruct D as [-> | ->]; reflexivity.
    - intros k. rewrite H. unfold only_agent. destruct D as [-> | ->]; reflexivity.
  Qed.

  Lemma last_put hs k v x : NoDup (map (fun y => capitalize (fst y)) hs) -> last_of (put hs k v) x = if cstr_eqb (capitalize k) x then Some v else last_of hs x.
  Proof.
    induction hs as [|[k' v'] hs IH]; intros ND; [cbn [put last_of]; reflexivity|]. cbn [map fst] in ND. apply NoDup_cons_iff in ND as [NI ND].
    assert (Abs : forall y, last_of hs y <> None -> In y (map (fun y => capitalize (fst y)) hs)).
    { clear. induction hs as [|[k v] hs IH]; intros y H; [easy|]. cbn [last_of] in H. cbn [map fst]. destruct (last_of hs y) eqn:E; [right; apply IH; congruence|].
      destruct (cstr_eqb (capitalize k) y) eqn:E2; [|easy]. left. now apply cstr_eqb_eq. }
    cbn [put]. destruct (cstr_eqb k' k) eqn:E.
    - apply cstr_eqb_eq in E. subst k'. cbn [last_of]. destruct (cstr_eqb (capitalize k) x) eqn:E2; [|reflexivity].
      apply cstr_eqb_eq in E2. subst x. destruct (last_of hs (capitalize k)) eqn:E3; [|reflexivity]. destruct NI. apply Abs. congruence.
    - cbn [last_of]. rewrite IH by exact ND. destruct (cstr_eqb (capitalize k) x) eqn:E2; reflexivity.
  Qed.
  Lemma last_find hs k : NoDup (map (fun x => capitalize (fst x)) hs) -> last_of hs k = option_map snd (find (fun x => cstr_eqb (capitalize (fst x)) k) hs).
  Proof.
    induction hs as [|[k' v] hs IH]; intros ND; [reflexivity|]. cbn [map fst] in ND. apply NoDup_cons_iff in ND as [NI ND]. cbn [last_of find fst]. rewrite IH by exact ND.
    destruct (cstr_eqb (capitalize k') k) eqn:E; [|now destruct (option_map _ _)]. apply cstr_eqb_eq in E. subst k.
    destruct (find _ hs) as [[k2 v2]|] eqn:F; [|reflexivity]. apply find_some in F as [I1 E2]. cbn [fst] in E2. apply cstr_eqb_eq in E2. destruct NI. rewrite <- E2.
    apply in_map_iff. exists (k2, v2). now split.
  Qed.
  Lemma given_made hs url : NoDup (map (fun x => capitalize (fst x)) hs) -> parse url <> None ->
    exists d r, make url None hs = (d, Some r) /\ full_url r = url /\ with_headers r (agent_and hs).
  Proof.
    intros ND P. destruct (made url None hs) as [_ M]. cbv zeta in M. destruct (M P) as (r & E & F & H). do 2 eexists. split; [exact E|]. split; [exact F|].
    intros k. rewrite H, last_put, last_find by exact ND. reflexivity.
  Qed.

  Lemma asked f hs : hs = put hs (txt "User-Agent") ua -> (forall k, last_of hs k = f k) -> forall ms, (forall m, In m ms -> m <> [] /\ parse (urljoin m (txt "1/location.db.xz")) <> None) ->
    Forall2 (fun m r => to_mirror m f r) ms (ask parse urljoin version proxies hs ms).
  Proof.
    intros Hs Lo. induction ms as [|m ms IH]; intros H; cbn [ask]; [constructor|]. destruct (H m (or_introl eq_refl)) as [N0 P]. destruct m as [|c m]; [easy|].
    destruct (made database_url (Some (c :: m)) hs) as [_ M]. cbv zeta in M. destruct (M P) as (r & E & F & G). rewrite E, <- Hs.
    constructor; [|apply IH; intros x X; apply H; now right]. split; [exact F|]. intros k. rewrite G, <- Hs. apply Lo.
  Qed.
  Lemma asked_first f hs : (forall k, last_of (put hs (txt "User-Agent") ua) k = f k) -> put hs (txt "User-Agent") ua = put (put hs (txt "User-Agent") ua) (txt "User-Agent") ua ->
    forall ms, (forall m, In m ms -> m <> [] /\ parse (urljoin m (txt "1/location.db.xz")) <> None) ->
    Forall2 (fun m r => to_mirror m f r) ms (ask parse urljoin version proxies hs ms).
  Proof.
    intros Lo Hs ms H. destruct ms as [|m ms]; cbn [ask]; [constructor|]. destruct (H m (or_introl eq_refl)) as [N0 P]. destruct m as [|c m]; [easy|].
    destruct (made database_url (Some (c :: m)) hs) as [_ M]. cbv zeta in M. destruct (M P) as (r & E & F & G). rewrite E.
    constructor; [split; [exact F|]; intros k; now rewrite G|]. apply asked; [exact Hs|exact Lo|]. intros x X. apply H. now right.
  Qed.

  Lemma all_calls l : Forall call_fine l -> forall d, default_ok d -> Forall2 as_it_should l (calls parse urljoin version proxies d l).
  Proof.
    induction 1 as [|c l C F IH]; intros d D; cbn [calls]; [constructor|]. destruct c as [url hs|t years ms].
    - destruct C as [P Q]. destruct hs as [hs|].
      + destruct (given_made hs url Q P) as (d2 & r & E & A & B). rewrite E. cbn [fst snd]. constructor; [|now apply IH]. exists r. now repeat split.
      + destruct (default_made d url D P) as (r & E & A & B). rewrite E. cbn [fst snd]. constructor; [exists r; now repeat split|]. apply IH. now right.
    - destruct C as (L & Y & Ms). constructor; [|now apply IH]. cbn [as_it_should]. unfold download_requests. split.
      + intros ->. cbn [N.eqb]. apply asked_first; [reflexivity|reflexivity|exact Ms].
      + intros T. replace (t =? 0) with false by lia. destruct (time_text_spec (Z.of_N t) years ltac:(lia) Y) as (y & mo & da & h & mi & s & V & S0 & E).
        exists y, mo, da, h, mi, s. split; [exact V|]. split; [exact S0|]. rewrite E. set (date := date_text _ _ _ _ _ _ _).
        apply asked_first; [|reflexivity|exact Ms]. intros k. cbn [put last_of]. unfold agent_since.
        replace (cstr_eqb (txt "If-Modified-Since") (txt "User-Agent")) with false by reflexivity. cbn [last_of].
        replace (capitalize (txt "User-Agent")) with agent by reflexivity. replace (capitalize (txt "If-Modified-Since")) with since by reflexivity.
        now destruct (cstr_eqb agent k).
  Qed.

  Lemma proxied url t h s hs d r : parse url = Some (t, h, s) -> make url None hs = (d, Some r) ->
    (proxies = [] -> scheme r = t /\ host r = h /\ tunnel r = [] /\ selector r = s) /\
    (t = txt "https" -> forall p q, proxies = [(p, q)] -> scheme r = txt "https" /\ host r = q /\ tunnel r = h /\ selector r = s) /\
    (t <> txt "https" -> forall p q, proxies = [(p, q)] -> scheme r = p /\ host r = q /\ tunnel r = [] /\ selector r = url).
  Proof.
    intros P E. unfold make_request in E. rewrite P in E. injection E as _ E.
    destruct (add_same (put hs (txt "User-Agent") (txt "location/" ++ version)) (mkRequest url t h [] s [])) as (A1 & A2 & A3 & A4 & A5). cbv zeta in A1, A2, A3, A4, A5.
    set (x := fold_left (fun r x => add_header r (fst x) (snd x)) _ _) in *. cbn [full_url scheme host tunnel selector] in A1, A2, A3, A4, A5.
    split; [|split].
    - intros Z. rewrite Z in E. cbn [fold_left] in E. subst r. now repeat split.
    - intros T p q Z. rewrite Z in E. cbn [fold_left fst snd] in E. subst r. unfold set_proxy. rewrite A2, A4, T. cbn [andb]. 
      replace (cstr_eqb (txt "https") (txt "https")) with true by reflexivity. cbn [andb scheme host tunnel selector]. repeat split; congruence.
    - intros T p q Z. rewrite Z in E. cbn [fold_left fst snd] in E. subst r. unfold set_proxy. rewrite A2.
      destruct (cstr_eqb t (txt "https")) eqn:B; [apply cstr_eqb_eq in B; easy|]. cbn [andb scheme host tunnel selector]. repeat split; congruence.
  Qed.
  Lemma downgraded url h s hs d r a b : h <> [] -> parse url = Some (txt "https", h, s) -> proxies = [(txt "https", a); (txt "http", b)] -> make url None hs = (d, Some r) ->
    scheme r = txt "http" /\ host r = b.
  Proof.
    intros H P Z E. unfold make_request in E. rewrite P in E. injection E as _ E.
    destruct (add_same (put hs (txt "User-Agent") (txt "location/" ++ version)) (mkRequest url (txt "https") h [] s [])) as (A1 & A2 & A3 & A4 & A5). cbv zeta in A1, A2, A3, A4, A5.
    set (x := fold_left (fun r x => add_header r (fst x) (snd x)) _ _) in *. cbn [full_url scheme host tunnel selector] in A1, A2, A3, A4, A5.
    rewrite Z in E. cbn [fold_left fst snd] in E. subst r. unfold set_proxy at 2 4. rewrite A2, A4. 
    replace (cstr_eqb (txt "https") (txt "https")) with true by reflexivity. cbn [andb]. unfold set_proxy. cbn [scheme tunnel]. rewrite A3.
    destruct h; [easy|]. rewrite andb_false_r. split; reflexivity.
  Qed.
End Requests.

(** ** Answers *)
Lemma filled : forall pieces t, pos t = length (content t) -> Forall (fun p => p <> []) pieces ->
  content (fill t pieces) = content t ++ concat pieces.
Proof.
  induction pieces as [|p pieces IH]; intros t P F; cbn [fill concat]; [now rewrite app_nil_r|]. inversion F as [|? ? N0 F']; subst.
  replace (length p =? 0)%nat with false by (destruct p; [easy|cbn; lia]). rewrite IH; [|unfold fwrite; cbn [pos content]; rewrite P, !app_length, firstn_length, skipn_length; lia|exact F'].
  unfold fwrite. cbn [content]. rewrite P, firstn_all, skipn_all2 by lia. now rewrite app_nil_r, app_assoc.
Qed.
Lemma magic_dec x : cstr_eqb (firstn 2 x) [31; 139] = true <-> magic x.
Proof.
  rewrite cstr_eqb_eq. split.
  - destruct x as [|a [|b x]]; cbn [firstn]; [discriminate|discriminate|]. intros E. injection E as -> ->. now exists x.
  - intros (y & ->). reflexivity.
Qed.
Lemma retrieved gunzip pieces ct : Forall (fun p => p <> []) pieces ->
  (gzip_type ct \/ magic (concat pieces) -> read gunzip (retrieve pieces ct) = gunzip (concat pieces)) /\
  (~ gzip_type ct -> ~ magic (concat pieces) -> read gunzip (retrieve pieces ct) = Some (concat pieces)).
Proof.
  intros F. unfold retrieve. rewrite filled by (try reflexivity; exact F). cbn [content app].
  assert (T : (match ct with Some s => cstr_eqb s (txt "application/x-gzip") || cstr_eqb s (txt "application/gzip") | None => false end) = true <-> gzip_type ct).
  { unfold gzip_type. destruct ct as [s|]; [|intuition discriminate]. rewrite orb_true_iff, !cstr_eqb_eq. intuition congruence. }
  pose proof (magic_dec (concat pieces)) as M. cbv zeta.
  destruct (match ct with Some s => _ | None => false end); [split; [reflexivity|intros H; exfalso; apply H; now apply T]|].
  destruct (cstr_eqb (firstn 2 (concat pieces)) [31; 139]); [split; [reflexivity|intros _ H; exfalso; apply H; now apply M]|].
  split; [|reflexivity]. intros [H|H]; [apply T in H|apply M in H]; discriminate.
Qed.
Lemma served gunzip compress x : (forall y, gunzip (compress y) = Some y /\ magic (compress y)) ->
  forall pieces ct, Forall (fun p => p <> []) pieces ->
  (concat pieces = compress x \/ concat pieces = x /\ ~ magic x /\ ~ gzip_type ct) -> read gunzip (retrieve pieces ct) = Some x.
Proof.
  intros G pieces ct F [E|(E & M & T)]; destruct (retrieved gunzip pieces ct F) as [A B].
  - rewrite A; rewrite E; [apply G|right; apply G].
  - rewrite B; rewrite ?E; auto.
Qed.
Lemma proxies_of environ : let e := environ (txt "https_proxy") in let f := environ (txt "http_proxy") in
  get_proxies environ = (match e with Some (c :: s) => [(txt "https", c :: s)] | _ => [] end) ++ (match f with Some (c :: s) => [(txt "http", c :: s)] | _ => [] end).
Proof. cbv zeta. unfold get_proxies. cbn [flat_map]. rewrite app_nil_r. reflexivity. Qed.
Lemma encrypted parse urljoin version environ url h s hs d r : parse url = Some (txt "https", h, s) ->
  make_request parse urljoin version (get_proxies environ) url None hs = (d, Some r) ->
  (unset_in environ (txt "https_proxy") \/ unset_in environ (txt "http_proxy")) ->
  scheme r = txt "https" /\ selector r = s /\
  (unset_in environ (txt "https_proxy") -> unset_in environ (txt "http_proxy") -> host r = h /\ tunnel r = []) /\
  (forall name p, In name [txt "https_proxy"; txt "http_proxy"] -> p <> [] -> environ name = Some p -> host r = p /\ tunnel r = h).
Proof.
  intros P E U. destruct (proxied parse urljoin version _ url _ h s hs d r P E) as (A & B & _). specialize (B eq_refl).
  pose proof (proxies_of environ) as G. cbv zeta in G. unfold unset_in in *.
  destruct (environ (txt "https_proxy")) as [[|c1 s1]|] eqn:E1; destruct (environ (txt "http_proxy")) as [[|c2 s2]|] eqn:E2; cbn [app] in G;
    try (exfalso; destruct U as [[U|U]|[U|U]]; discriminate);
    first [destruct (A G) as (X1 & X2 & X3 & X4)|destruct (B _ _ G) as (X1 & X2 & X3 & X4)];
    (split; [exact X1|]; split; [exact X4|]; split;
      [intros [Y|Y] [Z|Z]; try discriminate; now split
      |intros name p [<-|[<-|[]]] N0 Q; rewrite ?E1, ?E2 in Q; try discriminate; injection Q as <-; try easy; now split]).
Qed.
Lemma not_encrypted parse urljoin version environ url h s hs d r : h <> [] -> parse url = Some (txt "https", h, s) ->
  make_request parse urljoin version (get_proxies environ) url None hs = (d, Some r) ->
  set_in environ (txt "https_proxy") -> set_in environ (txt "http_proxy") -> scheme r = txt "http".
Proof.
  intros N0 P E (c1 & s1 & E1) (c2 & s2 & E2). pose proof (proxies_of environ) as G. cbv zeta in G. rewrite E1, E2 in G. cbn [app] in G.
  apply (downgraded parse urljoin version _ url h s hs d r _ _ N0 P G E).
Qed.
