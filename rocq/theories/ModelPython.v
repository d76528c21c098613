(** Model of the objects of the Python binding: how they are compared, hashed and
    changed. src/python/network.c, as.c and country.c; Objects/object.c of CPython for what
    the interpreter does with the results. Texts are given in UTF-8. *)
From Coq Require Import String.
From Coq Require Import NArith ZArith List Bool Arith.
From Verif Require Import Base ModelAddress ModelCountryCode ModelNetwork ModelObjects SpecText ModelBindings.
Import ListNotations.
Open Scope N_scope.

(** ** Comparisons *)
Inductive op := LT | LE | EQ | NE | GT | GE.
Definition swapped (o : op) : op := match o with LT => GT | LE => GE | EQ => EQ | NE => NE | GT => LT | GE => LE end.
(** network.c:251-280 Network_richcompare, as.c:105-134 AS_richcompare, country.c:124-153
    Country_richcompare: [r] is the result of the comparison, [None] is NotImplemented *)
Definition richcompare (r : Z) (o : op) : option bool :=
  match o with
  | EQ => Some (r =? 0)%Z
  | LT => Some (r <? 0)%Z
  | _ => None
  end.
(** object.c do_richcompare: the second operand is asked after the first one; then objects
    are compared by their address. [same]: both are the same object. *)
Definition py_compare {A} (cmp : A -> A -> Z) (same : bool) (o : op) (a b : A) : py bool :=
  match richcompare (cmp a b) o with
  | Some x => value x
  | None =>
      match richcompare (cmp b a) (swapped o) with
      | Some x => value x
      | None => match o with
                | EQ => value same
                | NE => value (negb same)
                | _ => raise TypeError
                end
      end
  end.

(** ** Hashes *)
Section Hash.
  (** hash() of a string *)
  Variable str_hash : cstr -> Z.
  (** as.c:136-140 AS_hash *)
  Definition py_as_hash (a : as_obj) : py Z := value (Z.of_N (as_number a)).
  (** country.c:71-75 Country_get_code, 155-169 Country_hash *)
  Definition py_code (c : country) : py cstr := py_text (cc_str (c_code c)).
  Definition py_country_hash (c : country) : py Z := pbind (py_code c) (fun s => value (str_hash s)).
  (** network.c:396-409: a type that can be compared and has no function for the hash *)
  Definition py_network_hash (n : network) : py Z := raise TypeError.
End Hash.

(** ** Values that are assigned *)
(** [Deleted]: the attribute is deleted *)
Inductive pyval := PyStr (s : cstr) | PyInt (z : Z) | PyOther | Deleted.
(** What an assignment does: nothing is wrong; an exception is raised; or an exception is
    set, but not reported to the interpreter, which goes on until it notices. *)
Inductive setting (A : Type) := Stored (a : A) | Refused (e : exc) (a : A) | Unreported (e : exc) (a : A).
Arguments Stored {A}. Arguments Refused {A}. Arguments Unreported {A}.

(** what C takes the text for *)
Fixpoint to_nul (s : cstr) : cstr := match s with [] => [] | c :: s' => if c =? 0 then [] else c :: to_nul s' end.
(** PyUnicode_AsUTF8: the text or NULL with an exception *)
Definition as_utf8 (v : pyval) : outcome (cstr + exc) :=
  match v with
  | PyStr s => if utf8 s then Ok (inl (to_nul s)) else Ok (inr ValueError)
  | Deleted => UB
  | _ => Ok (inr TypeError)
  end.

(** network.c:128-150 Network_set_asn, 64 bits: long is what Z is between the limits.
    PyLong_AsLong returns -1 for everything that is no number or too large. *)
Definition as_long (v : pyval) : Z :=
  match v with
  | PyInt z => if ((- 2 ^ 63 <=? z) && (z <? 2 ^ 63))%Z then z else (-1)%Z
  | _ => (-1)%Z
  end.
Definition py_set_asn (n : network) (v : pyval) : setting network :=
  let asn := as_long v in
  if (asn <=? 0)%Z then Refused ValueError n
  else if (2 ^ 32 - 1 <? asn)%Z then Refused ValueError n
  else Stored (set_asn n (Z.to_N asn)).
(** network.c:104-117 Network_set_country_code *)
Definition py_set_country_code (n : network) (v : pyval) : outcome (setting network) :=
  do code <- as_utf8 v;
  match code with
  | inl s => match set_country_code n (Some s) with
             | Ok n' => Ok (Stored n')
             | Err _ => Ok (Refused ValueError n)
             | UB => UB
             | Fuel => Fuel
             end
  | inr e => match set_country_code n None with
             | Ok n' => Ok (Unreported e n')
             | Err _ => Ok (Refused ValueError n)
             | UB => UB
             | Fuel => Fuel
             end
  end.
(** network.c:152-178 Network_has_flag, Network_set_flag; "i" *)
Definition as_int (v : pyval) : Z + exc :=
  match v with
  | PyInt z => if ((- 2 ^ 31 <=? z) && (z <? 2 ^ 31))%Z then inl z else inr OverflowError
  | _ => inr TypeError
  end.
Definition py_get_flag (n : network) (v : pyval) : py bool :=
  match as_int v with
  | inl z => value (negb (has_flag n (Z.to_N (z mod 2 ^ 32)) =? 0))
  | inr e => raise e
  end.
Definition py_set_flag (n : network) (v : pyval) : setting network :=
  match as_int v with
  | inl z => Stored (set_flag n (Z.to_N (z mod 2 ^ 32)))
  | inr e => Refused e n
  end.
(** network.c:195-205 Network_is_subnet_of *)
Definition py_is_subnet_of (self other : network) : bool := is_subnet other self.
(** network.c:219-231 PyBytes_FromAddress *)
Definition py_packed (a : addr) : list N := if v4mapped a then skipn 12 a else a.

(** as.c:47-59 AS_init: the object, whose address is [id] *)
Definition py_as (id : nat) (v : pyval) : py as_obj :=
  match as_int v with
  | inl z => value (as_new id (Z.to_N (z mod 2 ^ 32)))
  | inr e => raise e
  end.
(** as.c:81-103 AS_get_number, AS_get_name, AS_set_name *)
Definition py_number (a : as_obj) : Z := Z.of_N (as_number a).
Definition py_as_name (a : as_obj) : py cstr := match as_name a with Some s => py_text s | None => UB end.
Definition py_set_as_name (a : as_obj) (v : pyval) : outcome (setting as_obj) :=
  do name <- as_utf8 v;
  match name with
  | inl s => Ok (Stored (as_set_name a (Some s)))
  | inr e => Ok (Unreported e (as_set_name a None))
  end.

(** country.c:47-59 Country_init: an error without an exception is a SystemError *)
Definition py_country (id : nat) (v : pyval) : py country :=
  match v with
  | PyStr s =>
      pbind (py_arg s) (fun s =>
      match country_new id (Some s) with
      | Ok c => value c
      | Err _ => raise SystemError
      | UB => UB
      | Fuel => Fuel
      end)
  | _ => raise TypeError
  end.
(** country.c:91-101 Country_set_name *)
Definition py_set_country_name (c : country) (v : pyval) : outcome (setting country) :=
  do name <- as_utf8 v;
  match name with
  | inl s => do c' <- country_set_name c (Some s); Ok (Stored c')
  | inr e => do c' <- country_set_name c None; Ok (Unreported e c')
  end.
(** country.c:103-122 Country_get_continent_code, Country_set_continent_code; the format of
    the message is given NULL if there is no text *)
Definition py_continent (c : country) : py (option cstr) :=
  match country_get_continent_code c with
  | None => value None
  | Some s => pbind (py_text s) (fun s => value (Some s))
  end.
Definition py_set_continent (c : country) (v : pyval) : outcome (setting country) :=
  do code <- as_utf8 v;
  match code with
  | inl s => match country_set_continent_code c (Some s) with
             | Ok c' => Ok (Stored c')
             | Err _ => Ok (Refused ValueError c)
             | UB => UB
             | Fuel => Fuel
             end
  | inr e => match country_set_continent_code c None with
             | Ok c' => Ok (Unreported e c')
             | Err _ => UB
             | UB => UB
             | Fuel => Fuel
             end
  end.
