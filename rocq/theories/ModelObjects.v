(** Model of src/as.c, src/as-list.c, src/country.c (objects) and
    src/country-list.c. Contexts and reference counts are left out (ModelRefcount).
    An object carries an [id] that stands for its address, so that a caller can
    go on changing an object that is in a list. *)
From Coq Require Import NArith ZArith List Bool Arith.
From Verif Require Import Base ModelCountryCode.
Import ListNotations.
Open Scope N_scope.

(** as.c:34-40 struct loc_as; a NULL name is [None]. *)
Record as_obj := mkAs { as_id : nat; as_number : N; as_name : option cstr }.

(** as.c:42-57 loc_as_new; calloc is taken to succeed. *)
Definition as_new (id : nat) (number : N) : as_obj := mkAs id number None.

(** as.c:92-102 loc_as_set_name; strdup is taken to succeed. *)
Definition as_set_name (a : as_obj) (name : option cstr) : as_obj :=
  mkAs (as_id a) (as_number a) name.

(** as.c:104-112 loc_as_cmp *)
Definition as_cmp (a b : as_obj) : Z :=
  if as_number b <? as_number a then 1
  else if as_number a <? as_number b then -1
  else 0%Z.

(** tolower in the C locale *)
Definition lower (x : N) : N := if (65 <=? x) && (x <=? 90) then x + 32 else x.

(** strcasestr(haystack, needle) != NULL: does the needle start here? *)
Fixpoint starts_nocase (hay needle : cstr) : bool :=
  match needle, hay with
  | [], _ => true
  | _, [] => false
  | y :: needle', x :: hay' => (lower x =? lower y) && starts_nocase hay' needle'
  end.
Fixpoint strcasestr (hay needle : cstr) : bool :=
  starts_nocase hay needle ||
  match hay with
  | [] => false
  | _ :: hay' => strcasestr hay' needle
  end.

(** as.c:143-157 loc_as_match_string *)
Definition as_match_string (a : as_obj) (s : option cstr) : bool :=
  match s with
  | None => true
  | Some s =>
      match as_name a with
      | None => true
      | Some name => strcasestr name s
      end
  end.

(** The name field of a country. After loc_country_set_name(c, NULL) it points to
    memory that was freed. *)
Inductive cname := NoName | Name (s : cstr) | Dangling.

(** country.c:38-48 struct loc_country *)
Record country := mkCountry { c_id : nat; c_code : cc2; c_continent : cc2; c_name : cname }.

(** country.c:50-71 loc_country_new *)
Definition country_new (id : nat) (code : option cstr) : outcome country :=
  if negb (cc_is_valid code) then Err 1
  else match code with
       | None => UB (* not reached: NULL is not valid *)
       | Some code => Ok (mkCountry id (cc_copy code) (0, 0) NoName)
       end.

(** country.c:101-106 loc_country_get_continent_code *)
Definition country_get_continent_code (c : country) : option cstr :=
  if fst (c_continent c) =? 0 then None else Some (cc_str (c_continent c)).

(** country.c:108-119 loc_country_set_continent_code *)
Definition country_set_continent_code (c : country) (code : option cstr) : outcome country :=
  match code with
  | None => Err 1
  | Some code =>
      if negb (length code =? 2)%nat then Err 1
      else Ok (mkCountry (c_id c) (c_code c) (cc_copy code) (c_name c))
  end.

(** country.c:121-123 loc_country_get_name, and the caller reading the string *)
Definition country_get_name (c : country) : outcome (option cstr) :=
  match c_name c with
  | NoName => Ok None
  | Name s => Ok (Some s)
  | Dangling => UB
  end.

(** country.c:125-138 loc_country_set_name: the old name is freed (a second time
    if the pointer dangles), and nothing is stored for NULL. *)
Definition country_set_name (c : country) (name : option cstr) : outcome country :=
  let set (x : cname) := mkCountry (c_id c) (c_code c) (c_continent c) x in
  match c_name c with
  | Dangling => UB
  | old =>
      match name with
      | Some s => Ok (set (Name s))
      | None => Ok (set (match old with NoName => NoName | _ => Dangling end))
      end
  end.

(** country.c:79-87 loc_country_free *)
Definition country_free (c : country) : outcome unit :=
  match c_name c with
  | Dangling => UB
  | _ => Ok tt
  end.

(** country.c:140-142 loc_country_cmp: strncmp over two bytes; the codes have two
    characters. *)
Definition country_cmp (a b : country) : Z := cc_cmp (c_code a) (c_code b).

(** as-list.c and country-list.c are the same code for the two kinds of objects. *)
Section ObjectList.
Context {A : Type}.
Variable cmp : A -> A -> Z.

(** as-list.c:24-32, country-list.c:25-33: the first [size] elements of the array
    and the number of allocated elements. *)
Record olist := mkOlist { ol_elems : list A; ol_cap : N }.

Definition olist_new : olist := mkOlist [] 0.
Definition olist_size (l : olist) : nat := length (ol_elems l).

(** as-list.c:34-51 loc_as_list_grow, country-list.c:35-52; reallocarray is taken
    to succeed. *)
Definition olist_grow (l : olist) : olist :=
  let size := ol_cap l * 2 in
  let size := if size <? 1024 then 1024 else size in
  mkOlist (ol_elems l) (ol_cap l + size).

(** as-list.c:143-151 loc_as_list_contains, country-list.c:141-149 *)
Definition olist_contains (l : olist) (x : A) : bool :=
  existsb (fun e => (cmp x e =? 0)%Z) (ol_elems l).

(** as-list.c:116-121 loc_as_list_get, country-list.c:114-120 *)
Definition olist_get (l : olist) (i : nat) : option A := nth_error (ol_elems l) i.

(** as-list.c:124-141 loc_as_list_append, country-list.c:122-139; the store past
    the allocation is undefined behaviour. *)
Definition olist_append (l : olist) (x : A) : outcome olist :=
  if olist_contains l x then Ok l
  else
    let l := if ol_cap l <=? N.of_nat (olist_size l) then olist_grow l else l in
    if ol_cap l <=? N.of_nat (olist_size l) then UB
    else Ok (mkOlist (ol_elems l ++ [x]) (ol_cap l)).

(** as-list.c:102-114 loc_as_list_clear, country-list.c:100-112 *)
Definition olist_clear (l : olist) : olist := olist_new.

(** as-list.c:171-174 loc_as_list_sort, country-list.c:174-177: qsort. No two
    elements of a list compare equal, so that every sorting algorithm has the same
    result (C46_as_sort_unique and C46_country_sort_unique). *)
Fixpoint isert (x : A) (l : list A) : list A :=
  match l with
  | [] => [x]
  | y :: l' => if (cmp x y <=? 0)%Z then x :: l else y :: isert x l'
  end.
Definition isort (l : list A) : list A := fold_right isert [] l.
Definition olist_sort (l : olist) : olist := mkOlist (isort (ol_elems l)) (ol_cap l).
End ObjectList.
Arguments olist A : clear implicits.

(** as-list.c:153-165 loc_as_list_contains_number *)
Definition as_list_contains_number (l : olist as_obj) (number : N) : bool :=
  olist_contains as_cmp l (as_new 0 number).

(** country-list.c:151-168 loc_country_list_contains_code: an invalid code is in no
    list. *)
Definition country_list_contains_code (l : olist country) (code : option cstr) : outcome bool :=
  match country_new 0 code with
  | Ok c => Ok (olist_contains country_cmp l c)
  | Err _ => Ok false
  | UB => UB
  | Fuel => Fuel
  end.
