(** Model of the functions of the Python, Perl and Lua bindings that look things
    up in a database: src/python/database.c, network.c, as.c, country.c,
    src/perl/Location.xs, src/lua/database.c, network.c, as.c, country.c.
    Text is what it is in UTF-8. *)
From Coq Require Import String.
From Coq Require Import NArith ZArith List Bool Arith.
From Verif Require Import Base ModelAddress ModelCountryCode ModelNetwork ModelNetworkList ModelStringPool ModelObjects ModelText SpecText
  ModelFile ModelDatabase ModelExport.
Import ListNotations.
Open Scope N_scope.

(** ** Python *)
(** The exceptions that matter here; UnicodeError is a ValueError. *)
Inductive exc := ValueError | OverflowError | OSError | SystemError | TypeError | AttributeError.
(** A call returns an object, raises an exception or crashes ([UB]). *)
Definition py (A : Type) : Type := outcome (A + exc).
Definition value {A} (a : A) : py A := Ok (inl a).
Definition raise {A} (e : exc) : py A := Ok (inr e).
Definition pbind {A B} (m : py A) (f : A -> py B) : py B :=
  do r <- m; match r with inl a => f a | inr e => raise e end.

(** CPython's decoder: no overlong forms, no surrogates, nothing above U+10FFFF *)
Definition cont (c : N) : bool := (128 <=? c) && (c <? 192).
Fixpoint utf8 (s : cstr) : bool :=
  match s with
  | [] => true
  | c :: s1 =>
      if c <? 128 then utf8 s1
      else match s1 with
      | [] => false
      | c1 :: s2 =>
          if (194 <=? c) && (c <? 224) then cont c1 && utf8 s2
          else match s2 with
          | [] => false
          | c2 :: s3 =>
              if (224 <=? c) && (c <? 240) then
                cont c1 && cont c2 && ((224 <? c) || (160 <=? c1)) && (negb (c =? 237) || (c1 <? 160)) && utf8 s3
              else match s3 with
              | [] => false
              | c3 :: s4 =>
                  (240 <=? c) && (c <? 245) && cont c1 && cont c2 && cont c3 &&
                  ((240 <? c) || (144 <=? c1)) && ((c <? 244) || (c1 <? 144)) && utf8 s4
              end
          end
      end
  end.

(** PyUnicode_FromString *)
Definition py_text (s : cstr) : py cstr := if utf8 s then value s else raise ValueError.
(** PyArg_ParseTuple "s": a text that cannot be encoded or has a NUL in it is refused *)
Definition py_arg (s : cstr) : py cstr :=
  if utf8 s && negb (existsb (fun c => c =? 0) s) then value s else raise ValueError.

(** database.c:960-970 loc_database_lookup_from_string: *network and the return
    value; the callers initialise *network with NULL. *)
Definition lookup_from_string (beyond : nat -> option N) (d : db) (s : cstr) (fuel : nat) : outcome (option network * Z) :=
  match address_parse false (Some s) with
  | Ok (a, _) => lookup beyond d a fuel
  | Err r => Ok (None, r)
  | UB => UB
  | Fuel => Fuel
  end.

Section Bindings.
(** bits beyond the address, number of nodes visited (ModelDatabase) *)
Variable beyond : nat -> option N.
Variable fuel : nat.
(** what the "replace" error handler makes of a string that is not UTF-8 *)
Variable replaced : cstr -> cstr.
(** the exception for errno after an error in a record of a country *)
Variable other : exc.

(** python/database.c:201-233 Database_lookup: the exception for EINVAL is
    replaced, as there is no break before default. *)
Definition py_lookup (d : db) (address : cstr) : py (option network) :=
  pbind (py_arg address) (fun address =>
  do x <- lookup_from_string beyond d address fuel;
  let (n, r) := x in
  if (r =? 0)%Z then value n else raise OSError).

(** python/database.c:142-166 Database_get_as; "i" refuses numbers that are no int *)
Definition py_get_as (d : db) (number : N) : py (option as_obj) :=
  if 2 ^ 31 <=? number then raise OverflowError
  else match get_as d number with
       | Ok a => value (Some a)
       | Err r => if (r =? 1)%Z then value None else raise SystemError
       | UB => UB
       | Fuel => Fuel
       end.

(** python/database.c:168-199 Database_get_country *)
Definition py_get_country (d : db) (code : cstr) : py (option country) :=
  pbind (py_arg code) (fun code =>
  match get_country d (Some code) with
  | Ok c => value c
  | Err _ => raise (if cc_is_valid (Some code) then other else ValueError)
  | UB => UB
  | Fuel => Fuel
  end).

(** python/network.c:92-104, 119-127, 152-163 Network_str, Network_get_country_code,
    Network_get_asn, Network_has_flag *)
Definition py_network_str (n : network) : py cstr := py_text (net_text n).
Definition py_country_code (n : network) : py cstr := py_text (get_country_code n).
Definition py_asn (n : network) : option N := if n_asn n =? 0 then None else Some (n_asn n).
Definition py_has_flag (n : network) (flag : N) : bool := negb (has_flag n flag =? 0).

(** python/country.c:81-89 Country_get_name *)
Definition py_country_name (c : country) : py (option cstr) :=
  do name <- country_get_name c;
  match name with
  | None => value None
  | Some s => pbind (py_text s) (fun s => value (Some s))
  end.

(** "%d" of a uint32_t *)
Definition int_text (n : N) : cstr := if n <? 2 ^ 31 then dec n else 45 :: dec (2 ^ 32 - n).
(** "%s" of PyUnicode_FromFormat *)
Definition py_shown (s : cstr) : cstr := if utf8 s then s else replaced s.
(** python/as.c:71-79 AS_str *)
Definition py_as_str (a : as_obj) : cstr :=
  txt "AS" ++ int_text (as_number a) ++
  match as_name a with Some name => txt " - " ++ py_shown name | None => [] end.

(** python/network.c:30-47 PyList_FromNetworkList, the loop: [k] networks are left *)
Fixpoint pop_all (l : nlist) (k : nat) : outcome (list network) :=
  if list_empty l then Ok []
  else match k with
       | O => Fuel
       | S k' =>
           do x <- list_pop l;
           match fst x with
           | None => UB (* not reached: the list is not empty *)
           | Some n => do r <- pop_all (snd x) k'; Ok (n :: r)
           end
       end.
(** python/network.c:180-193 Network_exclude: an empty Python list is made if there
    is no list, but loc_network_list_unref is called with NULL then. *)
Definition py_exclude (self other : network) : py (list network) :=
  match network_exclude self other with
  | Ok l => do r <- pop_all l (nsize l); value r
  | Err _ => UB
  | UB => UB
  | Fuel => Fuel
  end.

(** ** Perl and Lua *)
(** An exception, undef or nil, or a value *)
Inductive answer (A : Type) : Type := Exception | Nothing | Is (a : A).
Arguments Exception {A}.
Arguments Nothing {A}.
Arguments Is {A} a.

Definition answer_for {A} (d : db) (address : cstr) (f : network -> answer A) : outcome (answer A) :=
  do x <- lookup_from_string beyond d address fuel;
  let (n, r) := x in
  Ok (if negb (r =? 0)%Z then Exception else match n with None => Nothing | Some n => f n end).

(** Location.xs:163-187 lookup_country_code *)
Definition perl_country_code (d : db) (address : cstr) : outcome (answer cstr) :=
  answer_for d address (fun n => Is (get_country_code n)).
(** Location.xs:231-257 lookup_asn *)
Definition perl_asn (d : db) (address : cstr) : outcome (answer N) :=
  answer_for d address (fun n => if 0 <? n_asn n then Is (n_asn n) else Nothing).
(** Location.xs:190-229 lookup_network_has_flag *)
Definition perl_flag (flag : cstr) : option N :=
  if cstr_eqb (txt "LOC_NETWORK_FLAG_ANONYMOUS_PROXY") flag then Some 1
  else if cstr_eqb (txt "LOC_NETWORK_FLAG_SATELLITE_PROVIDER") flag then Some 2
  else if cstr_eqb (txt "LOC_NETWORK_FLAG_ANYCAST") flag then Some 4
  else if cstr_eqb (txt "LOC_NETWORK_FLAG_DROP") flag then Some 8
  else None.
Definition perl_has_flag (d : db) (address flag : cstr) : outcome (answer bool) :=
  match perl_flag flag with
  | None => Ok Exception
  | Some iv =>
      do x <- answer_for d address (fun n => Is (negb (has_flag n iv =? 0)));
      Ok (match x with Nothing => Is false | x => x end)
  end.

(** Location.xs:261-281 get_country_name: NULL is dereferenced if there is no such
    country, and strlen is called with NULL if it has no name. *)
Definition perl_country_name (d : db) (code : cstr) : outcome (answer cstr) :=
  match get_country d (Some code) with
  | Err _ => Ok Nothing
  | Ok None => UB
  | Ok (Some c) =>
      do name <- country_get_name c;
      match name with None => UB | Some s => Ok (Is s) end
  | UB => UB
  | Fuel => Fuel
  end.
(** Location.xs:283-303 get_continent_code *)
Definition perl_continent_code (d : db) (code : cstr) : outcome (answer cstr) :=
  match get_country d (Some code) with
  | Err _ => Ok Nothing
  | Ok None => UB
  | Ok (Some c) => match country_get_continent_code c with None => UB | Some s => Ok (Is s) end
  | UB => UB
  | Fuel => Fuel
  end.
(** Location.xs:305-326 get_as_name *)
Definition perl_as_name (d : db) (number : N) : outcome (answer cstr) :=
  match get_as d number with
  | Err _ => Ok Nothing
  | Ok a => match as_name a with None => UB | Some s => Ok (Is s) end
  | UB => UB
  | Fuel => Fuel
  end.

(** lua/database.c:181-206 Database_lookup *)
Definition lua_lookup (d : db) (address : cstr) : outcome (answer network) := answer_for d address (fun n => Is n).
(** lua/network.c:99-111, 126-138 Network_get_asn, Network_get_country_code *)
Definition lua_asn (n : network) : answer N := if n_asn n =? 0 then Nothing else Is (n_asn n).
Definition lua_country_code (n : network) : answer cstr :=
  match get_country_code n with [] => Nothing | (_ :: _) as s => Is s end.
(** lua/database.c:135-156 Database_get_as for the numbers of a uint32_t *)
Definition lua_get_as (d : db) (number : N) : outcome (answer as_obj) :=
  match get_as d number with
  | Err _ => Ok Nothing
  | Ok a => Ok (Is a)
  | UB => UB
  | Fuel => Fuel
  end.
(** lua/database.c:158-179 Database_get_country: create_country refers to NULL *)
Definition lua_get_country (d : db) (code : cstr) : outcome (answer country) :=
  match get_country d (Some code) with
  | Err _ => Ok Nothing
  | Ok None => UB
  | Ok (Some c) => Ok (Is c)
  | UB => UB
  | Fuel => Fuel
  end.
End Bindings.
Arguments Exception {A}.
Arguments Nothing {A}.
Arguments Is {A} a.
