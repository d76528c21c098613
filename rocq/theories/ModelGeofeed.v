(** Model of the update of geofeeds, src/scripts/location-importer.in:1770-1994.

    The tasks that fetch the feeds run at the same time; each has a connection and a
    transaction of its own (src/python/location/database.py:46-71) and only changes rows of
    its feed. They are modelled one after the other, in the order of their ids, all at the
    same time of the day. If one of them raises an exception, asyncio.TaskGroup cancels the
    others: here those that come after it. *)
From Coq Require Import String.
From Coq Require Import NArith ZArith List Bool Arith.
From Verif Require Import Base ModelCountryCode ModelStringPool SpecText ModelImport.
Import ListNotations.
Open Scope N_scope.

(** location-importer.in:223-247; the text of the error is left out *)
Record geofeed := mkG { g_id : N; g_url : cstr; g_status : option Z; g_updated : option Z }.
Record place := mkPlace { pl_net : pnet; pl_country : cstr; pl_region : cstr; pl_city : cstr }.
Record geo := mkGeo {
  ge_feeds : list geofeed;
  ge_places : list (N * place);   (* geofeed_networks: geofeed_id and the rest *)
  ge_serial : N                   (* the next id *)
}.

(** str.split(sep, n) *)
Fixpoint split_max (sep : N) (n : nat) (s : cstr) : list cstr :=
  match n with
  | O => [s]
  | S n' => match partition sep s with
            | (x, None) => [x]
            | (x, Some s') => x :: split_max sep n' s'
            end
  end.
Definition COMMA : N := 44.
Definition has_nul (s : cstr) : bool := existsb (N.eqb 0) s.

(** What the downloader returns or raises: the lines of a file; HTTPError; one of the errors
    of 1976; another exception, which may be raised while the file is being read *)
Inductive fetched := Answer (lines : list (list N)) | Http (code : Z) | Unreachable | Failed.

Section Geofeed.
  (** bytes.decode(), str.isspace of a character, str.upper(), ip_network(s, strict=False) *)
  Variable decode : list N -> option cstr.
  Variable space : N -> bool.
  Variable upper : cstr -> cstr.
  Variable py_net : cstr -> option pnet.

  (** 1885-1963. The codes that are valid are ASCII, for which octets and characters are
      the same. Text with a NUL is refused by PyArg_ParseTuple and by psycopg. *)
  Definition geofeed_line (line : list N) : imported place :=
    match decode line with
    | None => Skipped
    | Some line =>
        let line := rstrip space line in
        match line with
        | [] => Skipped
        | _ =>
            if starts_with HASH line then Skipped
            else
              match split_max COMMA 5 line with
              | network :: country :: region :: city :: _ =>
                  match py_net network with
                  | None => Skipped
                  | Some n =>
                      let country := upper (strip space country) in
                      match country with
                      | [] => Skipped
                      | _ =>
                          if has_nul country then Raised (* ValueError *)
                          else if negb (cc_is_valid (Some country)) then Skipped
                          else if has_nul region || has_nul city then Raised (* DataError *)
                          else Row (mkPlace n country region city)
                      end
                  end
              | _ => Skipped
              end
        end
    end.
  (** the rows of all lines; [None] is an exception *)
  Fixpoint geofeed_rows (lines : list (list N)) : option (list place) :=
    match lines with
    | [] => Some []
    | l :: lines' =>
        match geofeed_line l with
        | Raised => None
        | Skipped => geofeed_rows lines'
        | Row p => option_map (cons p) (geofeed_rows lines')
        end
    end.

  (** CURRENT_TIMESTAMP in microseconds, and what comes back for a URL *)
  Variable now : Z.
  Variable web : cstr -> fetched.
  Definition week : Z := 7 * 24 * 60 * 60 * 1000000.

  (** UPDATE geofeeds SET ... WHERE id = %s *)
  Definition set_status (id : N) (status : Z) (l : list geofeed) : list geofeed :=
    map (fun g => if g_id g =? id then mkG (g_id g) (g_url g) (Some status) (g_updated g) else g) l.
  Definition set_updated (id : N) (l : list geofeed) : list geofeed :=
    map (fun g => if g_id g =? id then mkG (g_id g) (g_url g) None (Some now) else g) l.
  (** DELETE FROM geofeed_networks WHERE geofeed_id = %s *)
  Definition forget (id : N) (l : list (N * place)) : list (N * place) := filter (fun r => negb (fst r =? id)) l.

  (** 1851-1994 _fetch_geofeed; [None]: an exception, nothing is changed *)
  Definition fetch_geofeed (g : geofeed) (st : geo) : option geo :=
    match web (g_url g) with
    | Answer lines =>
        match geofeed_rows lines with
        | Some rows =>
            Some (mkGeo (set_updated (g_id g) (ge_feeds st))
                    (forget (g_id g) (ge_places st) ++ map (fun p => (g_id g, p)) rows) (ge_serial st))
        | None => None
        end
    | Http code =>
        Some (mkGeo (set_status (g_id g) code (ge_feeds st))
                (if (code =? 404)%Z then forget (g_id g) (ge_places st) else ge_places st) (ge_serial st))
    | Unreachable => Some (mkGeo (set_status (g_id g) 599 (ge_feeds st)) (ge_places st) (ge_serial st))
    | Failed => None
    end.
  (** the state, and whether all have been processed *)
  Fixpoint fetch_all (l : list geofeed) (st : geo) : geo * bool :=
    match l with
    | [] => (st, true)
    | g :: l' => match fetch_geofeed g st with
                 | Some st' => fetch_all l' st'
                 | None => (st, false)
                 end
    end.

  (** 1771-1807: [linked] is network_geofeeds.url. geofeed_networks are deleted with their
      feed (ON DELETE CASCADE). INSERT takes a number even if there is a conflict. *)
  Definition unlink (linked : list cstr) (st : geo) : geo :=
    let feeds := filter (fun g => existsb (cstr_eqb (g_url g)) linked) (ge_feeds st) in
    mkGeo feeds (filter (fun r => existsb (fun g => g_id g =? fst r) feeds) (ge_places st)) (ge_serial st).
  Definition link (url : cstr) (st : geo) : geo :=
    mkGeo (if existsb (fun g => cstr_eqb (g_url g) url) (ge_feeds st) then ge_feeds st
           else ge_feeds st ++ [mkG (ge_serial st) url None None])
      (ge_places st) (ge_serial st + 1).
  (** 1810-1822 *)
  Definition older (t : Z) (g : geofeed) : bool :=
    match g_updated g with None => true | Some u => (u <=? now - t)%Z end.
  (** ORDER BY id *)
  Fixpoint insert_id (g : geofeed) (l : list geofeed) : list geofeed :=
    match l with [] => [g] | h :: l' => if g_id g <=? g_id h then g :: l else h :: insert_id g l' end.
  Definition by_id (l : list geofeed) : list geofeed := fold_right insert_id [] l.
  (** 1833-1849 *)
  Definition expire (st : geo) : geo :=
    mkGeo (ge_feeds st)
      (filter (fun r => negb (existsb (fun g => (g_id g =? fst r) && older (2 * week) g) (ge_feeds st))) (ge_places st))
      (ge_serial st).

  (** 1770-1849 handle_update_geofeeds *)
  Definition update_geofeeds (linked : list cstr) (st : geo) : geo * bool :=
    let st := fold_left (fun st url => link url st) linked (unlink linked st) in
    match fetch_all (by_id (filter (older week) (ge_feeds st))) st with
    | (st, true) => (expire st, true)
    | (st, false) => (st, false)
    end.
End Geofeed.
