(** Model of handle_write in src/scripts/location-importer.in:325-833: how a database is
    compiled out of the tables the importer has filled.

    A table is the list of its rows, in the order in which PostgreSQL happens to return
    them: that order decides between rows that are equally good. The text of a network and
    its way through Python into loc_writer_add_network is left out: the address and the
    prefix arrive as they are. [None] is an exception, which ends the command before a file
    is written. *)
From Coq Require Import NArith ZArith List Bool Arith.
From Verif Require Import Base ModelAddress ModelCountryCode ModelStringPool ModelNetwork ModelImport SpecWriter.
Import ListNotations.
Open Scope N_scope.

(** location-importer.in:250-299: what a row of a feed or of the overrides says; NULL is [None] *)
Record attrs := mkAttrs {
  a_country : option cstr;
  a_proxy : option bool;
  a_satellite : option bool;
  a_anycast : option bool;
  a_drop : option bool
}.
(** location-importer.in:196-299. The columns that handle_write does not use are left out,
    and so are the sources of the feeds. *)
Record tables := mkTables {
  t_announcements : list (pnet * N);
  t_networks : list row;
  t_geofeeds : list (N * cstr);                      (* id, url *)
  t_network_geofeeds : list (pnet * cstr);           (* network, url *)
  t_geofeed_networks : list (N * row);               (* geofeed_id, network and country *)
  t_network_feeds : list (pnet * attrs);
  t_autnum_feeds : list (N * attrs);
  t_network_overrides : list (pnet * attrs);
  t_autnum_overrides : list (N * (option cstr * attrs)); (* number, name, ... *)
  t_autnums : list (N * cstr);
  t_countries : list (cstr * (cstr * cstr))          (* country_code, continent_code, name *)
}.

(** ** SQL *)
Definition coalesce {A} (x y : option A) : option A := match x with Some _ => x | None => y end.
(** a >>= b *)
Definition contains (a b : pnet) : bool :=
  (p_bits a =? p_bits b) && (p_len a <=? p_len b) &&
  (p_base a / 2 ^ (p_bits a - p_len a) =? p_base b / 2 ^ (p_bits a - p_len a)).
(** SELECT ... ROW_NUMBER() OVER (... ORDER BY masklen(network) DESC) of the rows around
    [m], and the first one of them *)
Fixpoint best {A} (net : A -> pnet) (t : list A) (m : pnet) : option A :=
  match t with
  | [] => None
  | r :: t' =>
      let p := best net t' m in
      if contains (net r) m then
        match p with
        | Some q => if p_len (net r) <? p_len (net q) then p else Some r
        | None => Some r
        end
      else p
  end.
(** JOIN ... ON number = autnum *)
Definition by_number {A} (t : list (N * A)) (n : option N) : option A :=
  match n with
  | None => None
  | Some n => option_map snd (find (fun r => fst r =? n) t)
  end.
(** UNION; SELECT DISTINCT ON *)
Definition distinct {A} (net : A -> pnet) (l : list A) : list A :=
  fold_left (fun t r => if existsb (fun q => pnet_eqb (net q) (net r)) t then t else t ++ [r]) l [].
(** ORDER BY *)
Fixpoint insert_by {A} (before : A -> A -> bool) (x : A) (l : list A) : list A :=
  match l with
  | [] => [x]
  | y :: l' => if before y x then y :: insert_by before x l' else x :: l
  end.
Definition order_by {A} (before : A -> A -> bool) (l : list A) : list A := fold_right (insert_by before) [] l.

(** ** Networks *)
(** location-importer.in:375-432: the temporary table n *)
Record nrow := mkN { n_net : pnet; n_autnum : option N; n_at : attrs }.
Definition null : attrs := mkAttrs None None None None None.
Definition all_networks (t : tables) : list pnet :=
  distinct (fun n => n)
    (map fst (t_announcements t) ++ map r_net (t_networks t) ++ map fst (t_network_feeds t) ++
     map fst (t_network_overrides t) ++ map (fun r => r_net (snd r)) (t_geofeed_networks t)).

(** 447-485: the AS number; the column is an integer of 32 bits with a sign *)
Definition step_autnum (t : tables) (r : nrow) : option nrow :=
  match best fst (t_announcements t) (n_net r) with
  | None => Some r
  | Some (_, a) => if 2 ^ 31 <=? a then None else Some (mkN (n_net r) (Some a) (n_at r))
  end.
Definition with_country (r : nrow) (c : option cstr) : nrow :=
  let a := n_at r in mkN (n_net r) (n_autnum r) (mkAttrs c (a_proxy a) (a_satellite a) (a_anycast a) (a_drop a)).
(** 487-521: the country *)
Definition step_country (t : tables) (r : nrow) : nrow :=
  match best r_net (t_networks t) (n_net r) with
  | None => r
  | Some q => with_country r (r_country q)
  end.
(** 523-542: the networks of geofeeds, if the geofeed is the one of a network around *)
Definition geofeed_rows (t : tables) : list row :=
  distinct r_net
    (flat_map (fun g =>
       flat_map (fun a =>
         if cstr_eqb (snd g) (snd a) then
           flat_map (fun r => if (fst g =? fst r) && contains (fst a) (r_net (snd r)) then [snd r] else [])
             (t_geofeed_networks t)
         else []) (t_network_geofeeds t)) (t_geofeeds t)).
(** 544-576 *)
Definition step_geofeed (t : tables) (r : nrow) : nrow :=
  match best r_net (geofeed_rows t) (n_net r) with
  | None => r
  | Some q => with_country r (r_country q)
  end.
(** SET country = COALESCE(networks.country, n.country), ... *)
Definition over (new old : attrs) : attrs :=
  mkAttrs (coalesce (a_country new) (a_country old)) (coalesce (a_proxy new) (a_proxy old))
    (coalesce (a_satellite new) (a_satellite old)) (coalesce (a_anycast new) (a_anycast old))
    (coalesce (a_drop new) (a_drop old)).
Definition apply (new : option attrs) (r : nrow) : nrow :=
  match new with
  | None => r
  | Some new => mkN (n_net r) (n_autnum r) (over new (n_at r))
  end.
(** 578-631, 633-674, 676-728, 730-770: feeds, AS feeds, overrides, AS overrides *)
Definition step_feeds (t : tables) (r : nrow) : nrow := apply (option_map snd (best fst (t_network_feeds t) (n_net r))) r.
Definition step_as_feeds (t : tables) (r : nrow) : nrow := apply (by_number (t_autnum_feeds t) (n_autnum r)) r.
Definition step_overrides (t : tables) (r : nrow) : nrow := apply (option_map snd (best fst (t_network_overrides t) (n_net r))) r.
Definition step_as_overrides (t : tables) (r : nrow) : nrow :=
  apply (option_map snd (by_number (t_autnum_overrides t) (n_autnum r))) r.

Definition compile_row (t : tables) (m : pnet) : option nrow :=
  option_map (fun r => step_as_overrides t (step_overrides t (step_as_feeds t (step_feeds t (step_geofeed t (step_country t r))))))
    (step_autnum t (mkN m None null)).
Fixpoint collect {A B} (f : A -> option B) (l : list A) : option (list B) :=
  match l with
  | [] => Some []
  | x :: l' => match f x, collect f l' with Some y, Some r => Some (y :: r) | _, _ => None end
  end.
(** the order of inet values: family, address, length *)
Definition net_before (a b : pnet) : bool :=
  (p_bits a <? p_bits b) ||
  ((p_bits a =? p_bits b) && ((p_base a <? p_base b) || ((p_base a =? p_base b) && (p_len a <? p_len b)))).
(** 777-785 SELECT * FROM n ORDER BY network *)
Definition compile_rows (t : tables) : option (list nrow) :=
  option_map (order_by (fun a b => net_before (n_net a) (n_net b))) (collect (compile_row t) (all_networks t)).

(** 787-809: what is done with a row. An empty country and AS 0 are like NULL. *)
Definition is_true (b : option bool) : bool := match b with Some b => b | None => false end.
Definition raise_flag (b : option bool) (flag : N) (n : network) : network := if is_true b then set_flag n flag else n.
Definition to_addr (n : pnet) : addr := to_be 16 (if p_bits n =? 32 then 65535 * 2 ^ 32 + p_base n else p_base n).
Definition write_row (r : nrow) : option (list call) :=
  match network_new (to_addr (n_net r)) (p_len (n_net r)) with
  | Ok n =>
      match (if truthy (a_country (n_at r)) then set_country_code n (a_country (n_at r)) else Ok n) with
      | Ok x =>
          let x := match n_autnum r with Some a => if a =? 0 then x else set_asn x a | None => x end in
          let x := raise_flag (a_proxy (n_at r)) 1 x in
          let x := raise_flag (a_satellite (n_at r)) 2 x in
          let x := raise_flag (a_anycast (n_at r)) 4 x in
          let x := raise_flag (a_drop (n_at r)) 8 x in
          Some [AddNet n; SetNet n (n_cc x, n_asn x, n_flags x)]
      | _ => None
      end
  | _ => None
  end.
Definition write_networks (t : tables) : option (list call) :=
  match compile_rows t with
  | Some rows => option_map (@concat call) (collect write_row rows)
  | None => None
  end.

(** ** Autonomous Systems *)
(** 348-362 *)
Definition as_rows (t : tables) : list (N * cstr) :=
  order_by (fun a b => fst a <? fst b)
    (map (fun a => (fst a, match by_number (t_autnum_overrides t) (Some (fst a)) with
                           | Some (Some name, _) => name
                           | _ => snd a
                           end)) (t_autnums t)).
(** 364-370, with python/writer.c:147-163 Writer_add_as, which takes a C int. [id] is the number of
    the next object. *)
Fixpoint write_ases (id : nat) (rows : list (N * cstr)) : option (nat * list call) :=
  match rows with
  | [] => Some (id, [])
  | (number, name) :: rows' =>
      match name with
      | [] => write_ases id rows'
      | _ =>
          if 2 ^ 31 <=? number then None
          else match write_ases (S id) rows' with
               | Some (id', l) => Some (id', AddAs number :: NameAs id (Some name) :: l)
               | None => None
               end
      end
  end.

(** ** Countries *)
(** 814-823; the order is the one of the octets, which is the same in all collations for
    codes of two capital letters *)
Fixpoint str_before (a b : cstr) : bool :=
  match a, b with
  | [], [] => false
  | [], _ => true
  | _, [] => false
  | x :: a', y :: b' => (x <? y) || ((x =? y) && str_before a' b')
  end.
Definition country_rows (t : tables) : list (cstr * (cstr * cstr)) :=
  order_by (fun a b => str_before (fst a) (fst b)) (t_countries t).
(** 825-828: add_country and the setter of the continent code fail if the code is not valid *)
Fixpoint write_countries (id : nat) (rows : list (cstr * (cstr * cstr))) : option (list call) :=
  match rows with
  | [] => Some []
  | (code, (continent, name)) :: rows' =>
      if negb (cc_is_valid (Some code)) then None
      else if negb (length continent =? 2)%nat then None
      else match write_countries (S id) rows' with
           | Some l => Some (AddCountry (Some code) :: SetContinent id (Some continent) :: NameCountry id (Some name) :: l)
           | None => None
           end
  end.

(** ** All of it, up to the call of write *)
Definition when (s : option cstr) (f : option cstr -> call) : list call := if truthy s then [f s] else [].
Definition handle_write (vendor description license : option cstr) (t : tables) : option (list call) :=
  match write_ases 0 (as_rows t) with
  | None => None
  | Some (id, ases) =>
      match write_networks t with
      | None => None
      | Some networks =>
          match write_countries id (country_rows t) with
          | None => None
          | Some countries =>
              Some (when vendor SetVendor ++ when description SetDescription ++ when license SetLicense ++
                    ases ++ networks ++ countries)
          end
      end
  end.
