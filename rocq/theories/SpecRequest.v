(** What the requests of the downloader have to be. *)
From Coq Require Import String.
From Coq Require Import NArith ZArith List Bool Arith.
From Verif Require Import Base ModelCountryCode ModelStringPool SpecText SpecResolv SpecUpdate ModelRequest.
Import ListNotations.
Open Scope N_scope.

(** Names of headers as Request keeps them *)
Definition agent : cstr := txt "User-agent".
Definition since : cstr := txt "If-modified-since".
(** The headers of a request: exactly those of [f] *)
Definition with_headers (r : request) (f : cstr -> option cstr) : Prop := forall k, get (headers r) k = f k.

Section Spec.
  Variable parse : cstr -> option (cstr * cstr * cstr).
  Variable urljoin : cstr -> cstr -> cstr.
  Variable version : cstr.
  Definition ua : cstr := txt "location/" ++ version.
  Definition only_agent (k : cstr) : option cstr := if cstr_eqb agent k then Some ua else None.
  Definition agent_since (date : cstr) (k : cstr) : option cstr := if cstr_eqb agent k then Some ua else if cstr_eqb since k then Some date else None.
  (** what a dictionary says without regard to upper and lower case, and the agent *)
  Definition agent_and (hs : dict) (k : cstr) : option cstr :=
    if cstr_eqb agent k then Some ua else option_map snd (find (fun x => cstr_eqb (capitalize (fst x)) k) hs).
  Definition to_mirror (m : cstr) (f : cstr -> option cstr) (r : request) : Prop := full_url r = urljoin m (txt "1/location.db.xz") /\ with_headers r f.
  (** What the requests of a call have to be *)
  Definition as_it_should (c : call) (rs : list request) : Prop :=
    match c with
    | Retrieve url None => exists r, rs = [r] /\ full_url r = url /\ with_headers r only_agent
    | Retrieve url (Some hs) => exists r, rs = [r] /\ full_url r = url /\ with_headers r (agent_and hs)
    | Download t _ ms =>
        (t = 0 -> Forall2 (fun m r => to_mirror m only_agent r) ms rs) /\
        (0 < t < 253402300800 -> exists y mo d h mi s, valid_date y mo d h mi s /\ seconds_since_epoch y mo d h mi s = Z.of_N t /\
           Forall2 (fun m r => to_mirror m (agent_since (date_text (weekday (Z.of_N t)) y mo d h mi s)) r) ms rs)
    end.
  Definition call_fine (c : call) : Prop :=
    match c with
    | Retrieve url hs => parse url <> None /\ match hs with Some hs => NoDup (map (fun x => capitalize (fst x)) hs) | None => True end
    | Download t years ms => t < 253402300800 /\ (3 <= years)%nat /\ forall m, In m ms -> m <> [] /\ parse (urljoin m (txt "1/location.db.xz")) <> None
    end.
End Spec.

Definition gzip_type (ct : option cstr) : Prop := ct = Some (txt "application/x-gzip") \/ ct = Some (txt "application/gzip").
Definition magic (x : list N) : Prop := exists y, x = 31 :: 139 :: y.
(** Variables of the environment *)
Definition set_in (environ : cstr -> option cstr) (name : cstr) : Prop := exists c s, environ name = Some (c :: s).
Definition unset_in (environ : cstr -> option cstr) (name : cstr) : Prop := environ name = None \/ environ name = Some [].
