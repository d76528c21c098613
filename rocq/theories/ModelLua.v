(** Model of the Lua binding: src/lua/network.c, as.c, country.c and database.c without what
    is in ModelBindings. The C API of Lua is modelled by the values passed; objects of the
    wrong type raise an error before any of this. *)
From Coq Require Import String.
From Coq Require Import NArith ZArith List Bool Arith.
From Verif Require Import Base ModelAddress ModelCountryCode ModelNetwork ModelStringPool ModelObjects ModelText ModelFile ModelDatabase SpecText ModelEnum ModelExport
  ModelBindings ModelPython.
Import ListNotations.
Open Scope N_scope.

(** Arguments: a string, which may contain 0; a number with what it is without its fraction
    (None if it is not finite) and its string; nil or no argument; anything else *)
Inductive luaval := LuaStr (s : cstr) | LuaNum (t : option Z) (s : cstr) | LuaNil | LuaOther.

Section Lua.
  (** what lua_tonumber makes of a string, without the fraction *)
  Variable number_of : cstr -> option (option Z).
  (** what a double makes of an integer of 64 bits *)
  Variable rounded : Z -> Z.

  (** luaL_checkstring: None is an error. The library reads it up to the first 0. *)
  Definition check_string (v : luaval) : option cstr :=
    match v with LuaStr s => Some (to_nul s) | LuaNum _ s => Some s | _ => None end.
  (** luaL_optstring with NULL; None is an error *)
  Definition opt_string (v : luaval) : option (option cstr) :=
    match v with LuaNil => Some None | _ => match check_string v with Some s => Some (Some s) | None => None end end.
  (** luaL_checknumber *)
  Definition check_number (v : luaval) : option (option Z) :=
    match v with LuaNum t _ => Some t | LuaStr s => number_of s | _ => None end.
  (** The conversions of a double to unsigned int and int: undefined if it does not fit *)
  Definition to_unsigned (t : option Z) : outcome N :=
    match t with Some z => if (0 <=? z)%Z && (z <? 2 ^ 32)%Z then Ok (Z.to_N z) else UB | None => UB end.
  Definition to_int (t : option Z) : outcome Z :=
    match t with Some z => if (- 2 ^ 31 <=? z)%Z && (z <? 2 ^ 31)%Z then Ok z else UB | None => UB end.
  (** A call that returned an error raises one *)
  Definition or_error {A} (m : outcome A) : outcome (answer A) :=
    match m with Ok a => Ok (Is a) | Err _ => Ok Exception | UB => UB | Fuel => Fuel end.
  (** lua_pushstring, which makes nil of NULL *)
  Definition push_string (s : option cstr) : answer cstr := match s with Some s => Is s | None => Nothing end.

  (** ** Networks *)
  (** network.c:56-74 Network_new *)
  Definition lua_network_new (v : luaval) : outcome (answer network) :=
    match check_string v with
    | None => Ok Exception
    | Some s => or_error (network_new_from_string (Some s))
    end.
  (** network.c:88-95 Network_tostring *)
  Definition lua_network_str (n : network) : cstr := net_text n.
  (** network.c:115-122 Network_get_family *)
  Definition lua_family (n : network) : N := match n_family n with AF_INET6 => 10 | AF_INET => 2 end.
  (** network.c:142-152 Network_has_flag *)
  Definition lua_has_flag (n : network) (v : luaval) : outcome (answer bool) :=
    match check_number v with
    | None => Ok Exception
    | Some t => do flag <- to_int t; Ok (Is (negb (has_flag n (Z.to_N (flag mod 2 ^ 32)) =? 0)))
    end.
  (** network.c:156-182 Network_subnets: a table with the networks *)
  Definition lua_subnets (n : network) : outcome (answer (list network)) :=
    or_error (do (s1, s2) <- subnets n; Ok [s1; s2]).
  (** network.c:186-212 Network_reverse_pointer; nil if errno is ENOTSUP *)
  Definition lua_reverse_pointer (n : network) (v : luaval) : outcome (answer cstr) :=
    match opt_string v with
    | None => Ok Exception
    | Some suffix =>
        match reverse_pointer n suffix with
        | Ok s => Ok (Is s)
        | Err r => Ok (if (r =? ENOTSUP)%Z then Nothing else Exception)
        | UB => UB
        | Fuel => Fuel
        end
    end.

  (** ** ASes *)
  (** as.c:56-74 AS_new *)
  Definition lua_as_new (id : nat) (v : luaval) : outcome (answer as_obj) :=
    match check_number v with
    | None => Ok Exception
    | Some t => do n <- to_unsigned t; Ok (Is (as_new id n))
    end.
  (** as.c:88-101 AS_tostring: %d *)
  Definition lua_as_str (a : as_obj) : cstr :=
    txt "AS" ++ int_text (as_number a) ++ match as_name a with Some name => txt " - " ++ name | None => [] end.
  (** as.c:105-123 AS_get_name, AS_get_number *)
  Definition lua_as_name (a : as_obj) : answer cstr := push_string (as_name a).
  Definition lua_as_number (a : as_obj) : N := as_number a.

  (** ** Countries *)
  (** country.c:56-74 Country_new *)
  Definition lua_country_new (id : nat) (v : luaval) : outcome (answer country) :=
    match check_string v with
    | None => Ok Exception
    | Some s => or_error (country_new id (Some s))
    end.
  (** country.c:88-96 Country_eq *)
  Definition lua_country_eq (a b : country) : bool := (country_cmp a b =? 0)%Z.
  (** country.c:100-129 Country_get_name, Country_get_code (also __tostring),
      Country_get_continent_code *)
  Definition lua_country_name (c : country) : outcome (answer cstr) := do s <- country_get_name c; Ok (push_string s).
  Definition lua_code (c : country) : cstr := cc_str (c_code c).
  Definition lua_continent (c : country) : answer cstr := push_string (country_get_continent_code c).

  (** ** Databases *)
  (** database.c:45-76 Database_open: the octets of the file, if it can be opened *)
  Definition lua_open (v : luaval) (file : cstr -> option (list N)) : outcome (answer db) :=
    match check_string v with
    | None => Ok Exception
    | Some path => match file path with None => Ok Exception | Some f => or_error (db_open f) end
    end.
  (** database.c:92-102 Database_created_at: time_t is signed *)
  Definition lua_created_at (d : db) : Z :=
    let t := Z.of_N (d_created_at d) in rounded (if (t <? 2 ^ 63)%Z then t else (t - 2 ^ 64)%Z).
  (** database.c:106-133 Database_get_description, Database_get_license, Database_get_vendor *)
  Definition lua_db_text (get : db -> outcome (option cstr)) (d : db) : outcome (answer cstr) := do s <- get d; Ok (push_string s).
  (** database.c:135-156 Database_get_as, the number *)
  Definition lua_get_as_number (d : db) (v : luaval) : outcome (answer as_obj) :=
    match check_number v with
    | None => Ok Exception
    | Some t => do n <- to_unsigned t; lua_get_as d n
    end.
  Section List.
    (** bits beyond the address and numbers of steps (ModelEnum) *)
    Variable beyond : nat -> option N.
    Variable fuel : nat.
    (** database.c:256-278 DatabaseEnumerator_next_network *)
    Definition lua_next (d : db) (e : enum) : outcome (answer (enum * option network)) :=
      match next_network beyond d fuel None e with
      | Ok (e, x, r) => Ok (if (r =? 0)%Z then Is (e, x) else Exception)
      | Err _ => Ok Exception
      | UB => UB
      | Fuel => Fuel
      end.
    (** 280-299 Database_list_networks in a loop: the networks, or those before an error *)
    Fixpoint lua_loop (d : db) (k : nat) (e : enum) : outcome (list network * bool) :=
      match k with
      | O => Fuel
      | S k' =>
          do x <- lua_next d e;
          match x with
          | Is (e, Some n) => do (l, ok) <- lua_loop d k' e; Ok (n :: l, ok)
          | Is (_, None) | Nothing => Ok ([], true)
          | Exception => Ok ([], false)
          end
      end.
    Definition lua_list_networks (d : db) (k : nat) : outcome (list network * bool) := lua_loop d k (enum_new Networks false).
  End List.
End Lua.
