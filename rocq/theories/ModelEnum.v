(** Model of the enumerators of src/database.c. *)
From Coq Require Import NArith ZArith List Bool Arith.
From Verif Require Import Base ModelAddress ModelCountryCode ModelNetwork ModelNetworkList ModelObjects ModelFile ModelDatabase.
Import ListNotations.
Open Scope N_scope.

(** AF_INET and AF_INET6 on Linux *)
Definition family_number (f : family) : Z := match f with AF_INET => 2 | AF_INET6 => 10 end.

(** libloc/database.h:50-55 *)
Inductive enum_mode := Networks | Ases | Countries | Bogons.

(** database.c:107-142 struct loc_database_enumerator. The array network_stack
    with network_stack_depth is a list, top first: offset, i and depth of the
    nodes; element 0 of the array is not used. networks_visited is the list of the
    offsets that were marked. A NULL list of subnets is an empty one. *)
Record enum := mkEnum {
  en_mode : enum_mode;
  en_flatten : bool;
  en_string : option cstr;
  en_countries : option (olist country);
  en_asns : option (olist as_obj);
  en_flags : N;
  en_family : Z;
  en_as_index : N;
  en_country_index : N;
  en_addr : addr;
  en_nodes : list (N * N * nat);
  en_visited : list N;
  en_stack : nlist;
  en_subnets : nlist;
  en_gap6 : addr;
  en_gap4 : addr
}.

(** database.c:1096-1141 loc_database_enumerator_new; allocations are taken to
    succeed (calloc of zero elements does not return NULL with glibc). *)
Definition enum_new (mode : enum_mode) (flatten : bool) : enum :=
  mkEnum mode flatten None None None 0 0 0 0 (repeat 0 16) [(0, 0, 0%nat)] [] list_new list_new
    (addr_reset AF_INET6) (addr_reset AF_INET).

(** database.c:1161-1169 loc_database_enumerator_set_string *)
Definition enum_set_string (e : enum) (s : cstr) : enum :=
  mkEnum (en_mode e) (en_flatten e) (Some (map lower s)) (en_countries e) (en_asns e) (en_flags e) (en_family e)
    (en_as_index e) (en_country_index e) (en_addr e) (en_nodes e) (en_visited e) (en_stack e) (en_subnets e) (en_gap6 e) (en_gap4 e).
(** database.c:1179-1187 loc_database_enumerator_set_countries *)
Definition enum_set_countries (e : enum) (l : olist country) : enum :=
  mkEnum (en_mode e) (en_flatten e) (en_string e) (Some l) (en_asns e) (en_flags e) (en_family e)
    (en_as_index e) (en_country_index e) (en_addr e) (en_nodes e) (en_visited e) (en_stack e) (en_subnets e) (en_gap6 e) (en_gap4 e).
(** database.c:1197-1205 loc_database_enumerator_set_asns *)
Definition enum_set_asns (e : enum) (l : olist as_obj) : enum :=
  mkEnum (en_mode e) (en_flatten e) (en_string e) (en_countries e) (Some l) (en_flags e) (en_family e)
    (en_as_index e) (en_country_index e) (en_addr e) (en_nodes e) (en_visited e) (en_stack e) (en_subnets e) (en_gap6 e) (en_gap4 e).
(** database.c:1207-1212 loc_database_enumerator_set_flag *)
Definition enum_set_flag (e : enum) (flag : N) : enum :=
  mkEnum (en_mode e) (en_flatten e) (en_string e) (en_countries e) (en_asns e) (N.lor (en_flags e) flag) (en_family e)
    (en_as_index e) (en_country_index e) (en_addr e) (en_nodes e) (en_visited e) (en_stack e) (en_subnets e) (en_gap6 e) (en_gap4 e).
(** database.c:1214-1219 loc_database_enumerator_set_family *)
Definition enum_set_family (e : enum) (f : Z) : enum :=
  mkEnum (en_mode e) (en_flatten e) (en_string e) (en_countries e) (en_asns e) (en_flags e) f
    (en_as_index e) (en_country_index e) (en_addr e) (en_nodes e) (en_visited e) (en_stack e) (en_subnets e) (en_gap6 e) (en_gap4 e).

(** The state changes below *)
Definition with_as_index (e : enum) (i : N) : enum :=
  mkEnum (en_mode e) (en_flatten e) (en_string e) (en_countries e) (en_asns e) (en_flags e) (en_family e)
    i (en_country_index e) (en_addr e) (en_nodes e) (en_visited e) (en_stack e) (en_subnets e) (en_gap6 e) (en_gap4 e).
Definition with_country_index (e : enum) (i : N) : enum :=
  mkEnum (en_mode e) (en_flatten e) (en_string e) (en_countries e) (en_asns e) (en_flags e) (en_family e)
    (en_as_index e) i (en_addr e) (en_nodes e) (en_visited e) (en_stack e) (en_subnets e) (en_gap6 e) (en_gap4 e).
Definition with_search (e : enum) (a : addr) (nodes : list (N * N * nat)) (visited : list N) : enum :=
  mkEnum (en_mode e) (en_flatten e) (en_string e) (en_countries e) (en_asns e) (en_flags e) (en_family e)
    (en_as_index e) (en_country_index e) a nodes visited (en_stack e) (en_subnets e) (en_gap6 e) (en_gap4 e).
Definition with_lists (e : enum) (stack subnets : nlist) : enum :=
  mkEnum (en_mode e) (en_flatten e) (en_string e) (en_countries e) (en_asns e) (en_flags e) (en_family e)
    (en_as_index e) (en_country_index e) (en_addr e) (en_nodes e) (en_visited e) stack subnets (en_gap6 e) (en_gap4 e).
Definition with_gaps (e : enum) (gap6 gap4 : addr) : enum :=
  mkEnum (en_mode e) (en_flatten e) (en_string e) (en_countries e) (en_asns e) (en_flags e) (en_family e)
    (en_as_index e) (en_country_index e) (en_addr e) (en_nodes e) (en_visited e) (en_stack e) (en_subnets e) gap6 gap4.

(** database.c:1221-1255 loc_database_enumerator_next_as: the enumerator, *as and
    the return value *)
Fixpoint next_as_loop (d : db) (e : enum) (fuel : nat) : outcome (enum * option as_obj * Z) :=
  if en_as_index e <? snd (d_as d) then
    match fuel with
    | O => Fuel
    | S fuel' =>
        let index := en_as_index e in
        let e := with_as_index e (index + 1) in
        match fetch_as d index with
        | Ok a => if as_match_string a (en_string e) then Ok (e, Some a, 0%Z) else next_as_loop d e fuel'
        | Err r => Ok (e, None, r)
        | UB => UB
        | Fuel => Fuel
        end
    end
  else Ok (with_as_index e 0, None, 0%Z).
Definition next_as (d : db) (e : enum) : outcome (enum * option as_obj * Z) :=
  match en_mode e with
  | Ases => next_as_loop d e (N.to_nat (snd (d_as d)))
  | _ => Ok (e, None, 0%Z)
  end.

(** database.c:1685-1712 loc_database_enumerator_next_country *)
Definition next_country (d : db) (e : enum) : outcome (enum * option country * Z) :=
  match en_mode e with
  | Countries =>
      if en_country_index e <? snd (d_countries d) then
        let index := en_country_index e in
        let e := with_country_index e (index + 1) in
        match fetch_country d index with
        | Ok c => Ok (e, Some c, 0%Z)
        | Err r => Ok (e, None, r)
        | UB => UB
        | Fuel => Fuel
        end
      else Ok (with_country_index e 0, None, 0%Z)
  | _ => Ok (e, None, 0%Z)
  end.

(** database.c:1289-1329 loc_database_enumerator_match_network *)
Definition match_network (e : enum) (n : network) : outcome bool :=
  if negb (en_family e =? 0)%Z && negb (family_number (n_family n) =? en_family e)%Z then Ok false
  else
    match en_countries e, en_asns e with
    | None, None => if en_flags e =? 0 then Ok true else Ok (negb (has_flag n (en_flags e) =? 0))
    | countries, asns =>
        do c <- match countries with
                | Some l => if (olist_size l =? 0)%nat then Ok false
                            else country_list_contains_code l (Some (get_country_code n))
                | None => Ok false
                end;
        if (c : bool) then Ok true
        else if match asns with
                | Some l => negb (olist_size l =? 0)%nat && as_list_contains_number l (n_asn n)
                | None => false
                end then Ok true
        else if negb (en_flags e =? 0) && negb (has_flag n (en_flags e) =? 0) then Ok true
        else Ok false
    end.

(** database.c:99 *)
Definition MAX_STACK_DEPTH : nat := N.to_nat 256.

Section Search.
(** Writing bit 128 and beyond of network_address; see ModelDatabase. *)
Variable beyond : nat -> option N.

(** database.c:1257-1287 loc_database_enumerator_stack_push_node. The element
    written is the one with the index of the new depth. *)
Definition push_node (d : db) (e : enum) (offset i : N) (depth : nat) : outcome (enum * Z) :=
  if offset =? 0 then Ok (e, 0%Z)
  else if (MAX_STACK_DEPTH <=? length (en_nodes e))%nat then Ok (e, 1%Z)
  else if snd (d_tree d) <=? offset then Ok (e, 1%Z)
  else if (MAX_STACK_DEPTH <=? S (length (en_nodes e)))%nat then UB
  else Ok (with_search e (en_addr e) ((offset, i, depth) :: en_nodes e) (en_visited e), 0%Z).

(** database.c:1354-1416, the second loop of __loc_database_enumerator_next_network:
    the enumerator, *network and the return value. A node stays on the stack when
    its children are pushed and is taken off when it is seen again. *)
Fixpoint search (d : db) (filter : bool) (e : enum) (fuel : nat) : outcome (enum * option network * Z) :=
  match en_nodes e with
  | [] => Ok (e, None, 0%Z)
  | (offset, i, depth) :: rest =>
      match fuel with
      | O => Fuel
      | S fuel' =>
          if snd (d_tree d) <=? offset then UB (* networks_visited has that many elements *)
          else if existsb (N.eqb offset) (en_visited e) then
            search d filter (with_search e (en_addr e) rest (en_visited e)) fuel'
          else
            do a <- set_bit beyond (en_addr e) (depth - 1) i;
            let e := with_search e a (en_nodes e) (offset :: en_visited e) in
            do n <- fetch_node d offset;
            match n with
            | None => Ok (e, None, 1%Z)
            | Some n =>
                do (e, r) <- push_node d e (snd (fst n)) 1 (S depth);
                if negb (r =? 0)%Z then Ok (e, None, r)
                else
                  do (e, r) <- push_node d e (fst (fst n)) 0 (S depth);
                  if negb (r =? 0)%Z then Ok (e, None, r)
                  else if is_leaf n then
                    do (x, r) <- fetch_network d (en_addr e) (N.of_nat depth) (snd n);
                    if negb (r =? 0)%Z then Ok (e, x, r)
                    else
                      match x with
                      | None => UB (* not reached: there is a network if 0 is returned *)
                      | Some x =>
                          do m <- (if filter then match_network e x else Ok true);
                          if (m : bool) then Ok (e, Some x, 0%Z) else search d filter e fuel'
                      end
                  else search d filter e fuel'
            end
      end
  end.

(** database.c:1334-1349, the first loop *)
Fixpoint from_stack (filter : bool) (e : enum) (n : nat) : outcome (enum * option network) :=
  do (x, stack) <- list_pop_first (en_stack e);
  let e := with_lists e stack (en_subnets e) in
  match x with
  | None => Ok (e, None)
  | Some x =>
      do m <- (if filter then match_network e x else Ok true);
      if (m : bool) then Ok (e, Some x)
      else match n with O => Fuel | S n' => from_stack filter e n' end
  end.

(** database.c:1331-1419 __loc_database_enumerator_next_network *)
Definition next_inner (d : db) (filter : bool) (e : enum) (fuel : nat) : outcome (enum * option network * Z) :=
  do (e, x) <- from_stack filter e (nsize (en_stack e));
  match x with
  | Some x => Ok (e, Some x, 0%Z)
  | None => search d filter e fuel
  end.

(** database.c:1442-1477, the loop of
    __loc_database_enumerator_next_network_flattened that collects subnets *)
Fixpoint collect (d : db) (n : network) (fuel : nat) (e : enum) (k : nat) : outcome (enum * Z) :=
  match k with
  | O => Fuel
  | S k' =>
      do (e, x, r) <- next_inner d false e fuel;
      if negb (r =? 0)%Z then
        match x with
        | None => UB (* loc_network_unref(NULL) *)
        | Some _ => do l <- list_clear (en_subnets e); Ok (with_lists e (en_stack e) l, r)
        end
      else
        match x with
        | None => Ok (e, 0%Z)
        | Some x =>
            if is_subnet n x then
              do l <- list_push (en_subnets e) x;
              collect d n fuel (with_lists e (en_stack e) l) k'
            else
              do l <- list_push (en_stack e) x;
              Ok (with_lists e l (en_subnets e), 0%Z)
        end
  end.

(** database.c:1421-1526 __loc_database_enumerator_next_network_flattened *)
Fixpoint next_flattened (d : db) (fuel : nat) (e : enum) (k : nat) : outcome (enum * option network * Z) :=
  match k with
  | O => Fuel
  | S k' =>
      do (e, x, r) <- next_inner d true e fuel;
      if negb (r =? 0)%Z then Ok (e, x, r)
      else
        match x with
        | None => Ok (e, None, 0%Z)
        | Some x =>
            do (e, r) <- collect d x fuel e fuel;
            if negb (r =? 0)%Z then Ok (e, Some x, r)
            else if list_empty (en_subnets e) then
              do l <- list_clear (en_subnets e);
              Ok (with_lists e (en_stack e) l, Some x, 0%Z)
            else
              match network_exclude_list x (en_subnets e) fuel with
              | Ok excluded =>
                  do stack <- list_merge (en_stack e) (en_subnets e);
                  do stack <- list_merge stack excluded;
                  do l <- list_clear (en_subnets e);
                  next_flattened d fuel (with_lists e stack l) k'
              | Err _ =>
                  do l <- list_clear (en_subnets e);
                  Ok (with_lists e (en_stack e) l, Some x, 1%Z)
              | UB => UB
              | Fuel => Fuel
              end
        end
  end.

(** loc_network_list_summarize on the stack: the list and the return value. Simplified: when
    it fails, the networks pushed before stay on the stack; here the stack is as it was. No
    theorem says what is enumerated after an error. *)
Definition add_gap (e : enum) (start last : addr) (fuel : nat) : outcome (enum * Z) :=
  match list_summarize start last (en_stack e) fuel with
  | Ok l => Ok (with_lists e l (en_subnets e), 0%Z)
  | Err r => Ok (e, r)
  | UB => UB
  | Fuel => Fuel
  end.

(** loc_network_list_pop_first on the stack *)
Definition pop_stack (e : enum) : outcome (enum * option network) :=
  do (x, l) <- list_pop_first (en_stack e);
  Ok (with_lists e l (en_subnets e), x).

(** database.c:1626-1665, what follows the label FINISH; one half of it *)
Definition finish_family (e : enum) (f : family) (fuel : nat) : outcome (enum * Z) :=
  let start := match f with AF_INET6 => en_gap6 e | AF_INET => en_gap4 e end in
  if addr_all_zeroes start then Ok (e, 0%Z)
  else
    let gap_end := addr_reset_last f in
    do (e, r) <- (if (addr_cmp start gap_end <=? 0)%Z then add_gap e start gap_end fuel else Ok (e, 0%Z));
    if negb (r =? 0)%Z then Ok (e, r)
    else Ok (match f with
             | AF_INET6 => with_gaps e (addr_reset AF_INET6) (en_gap4 e)
             | AF_INET => with_gaps e (en_gap6 e) (addr_reset AF_INET)
             end, 0%Z).
Definition finish (e : enum) (fuel : nat) : outcome (enum * option network * Z) :=
  do (e, r) <- finish_family e AF_INET6 fuel;
  if negb (r =? 0)%Z then Ok (e, None, r)
  else
    do (e, r) <- finish_family e AF_INET fuel;
    if negb (r =? 0)%Z then Ok (e, None, r)
    else do (e, x) <- pop_stack e; Ok (e, x, 0%Z).

(** database.c:1551-1622, the loop of __loc_database_enumerator_next_bogon *)
Fixpoint bogon_loop (d : db) (fuel : nat) (e : enum) (k : nat) : outcome (enum * option network * Z) :=
  match k with
  | O => Fuel
  | S k' =>
      do (e, x, r) <- next_inner d true e fuel;
      if negb (r =? 0)%Z then Ok (e, None, r)
      else
        match x with
        | None => finish e fuel
        | Some n =>
            if (length (get_country_code n) =? 0)%nat then bogon_loop d fuel e k'
            else
              let start := match n_family n with AF_INET6 => en_gap6 e | AF_INET => en_gap4 e end in
              if (0 <=? addr_cmp start (n_last n))%Z then bogon_loop d fuel e k'
              else
                let gap_end := addr_decrement (n_first n) in
                do (e, r) <- (if (addr_cmp start gap_end <=? 0)%Z then add_gap e start gap_end fuel else Ok (e, 0%Z));
                if negb (r =? 0)%Z then Ok (e, None, r)
                else
                  let next := addr_increment (n_last n) in
                  let e := match n_family n with
                           | AF_INET6 => with_gaps e next (en_gap4 e)
                           | AF_INET => with_gaps e (en_gap6 e) next
                           end in
                  do (e, x) <- pop_stack e;
                  match x with
                  | Some x => Ok (e, Some x, 0%Z)
                  | None => bogon_loop d fuel e k'
                  end
        end
  end.

(** database.c:1531-1665 __loc_database_enumerator_next_bogon *)
Definition next_bogon (d : db) (fuel : nat) (e : enum) : outcome (enum * option network * Z) :=
  do (e, x) <- pop_stack e;
  match x with
  | Some x => Ok (e, Some x, 0%Z)
  | None => bogon_loop d fuel e fuel
  end.

(** database.c:1667-1683 loc_database_enumerator_next_network; [old] is what
    *network was, which is left alone in the other modes. *)
Definition next_network (d : db) (fuel : nat) (old : option network) (e : enum) : outcome (enum * option network * Z) :=
  match en_mode e with
  | Networks => if en_flatten e then next_flattened d fuel e fuel else next_inner d true e fuel
  | Bogons => next_bogon d fuel e
  | _ => Ok (e, old, 0%Z)
  end.
End Search.
