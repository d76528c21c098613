(** What is claimed about the writer in Python: which calls of the library a script stands
    for (SpecWriter tells what these mean), and which statements fail. *)
From Coq Require Import NArith ZArith List Bool.
From Verif Require Import Base ModelAddress ModelCountryCode ModelNetwork ModelText SpecNetwork SpecTree SpecWriter SpecCommand ModelBindings ModelPython
  SpecPython ModelPyWriter.
Import ListNotations.
Open Scope N_scope.

(** ** Attributes of a network *)
(** assignments that are accepted *)
Definition set_ok (s : nset) : Prop :=
  match s with
  | SetAsn (PyInt z) => (1 <= z < 2 ^ 32)%Z
  | SetCode (PyStr s) => letters s
  | SetFlag (PyInt z) => (- 2 ^ 31 <= z < 2 ^ 31)%Z
  | _ => False
  end.
(** values that are refused and change nothing; country codes are texts without a NUL *)
Definition set_bad (s : nset) : Prop :=
  match s with
  | SetAsn v => forall z, v = PyInt z -> ~ (1 <= z < 2 ^ 32)%Z
  | SetCode (PyStr s) => plain_text s /\ s <> [] /\ ~ letters s
  | SetCode _ => False
  | SetFlag v => forall z, v = PyInt z -> ~ (- 2 ^ 31 <= z < 2 ^ 31)%Z
  end.
Definition refusal (s : nset) : exc := match s with SetFlag (PyInt _) => OverflowError | SetFlag _ => TypeError | _ => ValueError end.
(** the attributes after them *)
Definition assign (a : cc2 * N * N) (s : nset) : cc2 * N * N :=
  let '(c, n, f) := a in
  match s with
  | SetAsn (PyInt z) => (c, Z.to_N z, f)
  | SetCode (PyStr [x; y]) => ((x, y), n, f)
  | SetFlag (PyInt z) => (c, n, N.lor f (Z.to_N (z mod 2 ^ 32)))
  | _ => a
  end.
Definition assigned (sets : list nset) : cc2 * N * N := fold_left assign sets ((0, 0), 0, 0).
(** all of them are accepted, or the first ones up to one that is refused *)
Inductive sets_to : list nset -> option wexc -> cc2 * N * N -> Prop :=
| sets_all : forall sets, Forall set_ok sets -> sets_to sets None (assigned sets)
| sets_some : forall sets s more, Forall set_ok sets -> set_bad s -> sets_to (sets ++ s :: more) (Some (Exc (refusal s))) (assigned sets).

(** ** Statements *)
(** texts without a NUL everywhere, and numbers of ASes *)
Definition set_plain (s : nset) : Prop := set_ok s \/ set_bad s.
Definition plain (s : pystmt) : Prop :=
  match s with
  | PyVendor (PyStr s) | PyDescription (PyStr s) | PyLicense (PyStr s) | PyNameAs _ (PyStr s) | PyAddCountry (PyStr s)
  | PyNameCountry _ (PyStr s) | PyContinent _ (PyStr s) => plain_text s
  | PyAddAs (PyInt z) => (0 <= z)%Z
  | PyAddNet (PyStr s) sets => plain_text s /\ Forall set_plain sets
  | _ => False
  end.
(** A statement after the calls [os] ends with the exception and does the same as the calls. *)
Inductive effect (os : list call) : pystmt -> option wexc -> list call -> Prop :=
| e_vendor : forall s, effect os (PyVendor (PyStr s)) None [SetVendor (Some s)]
| e_description : forall s, effect os (PyDescription (PyStr s)) None [SetDescription (Some s)]
| e_license : forall s, effect os (PyLicense (PyStr s)) None [SetLicense (Some s)]
| e_as : forall z, (0 <= z < 2 ^ 31)%Z -> effect os (PyAddAs (PyInt z)) None [AddAs (Z.to_N z)]
| e_as_large : forall z, (2 ^ 31 <= z)%Z -> effect os (PyAddAs (PyInt z)) (Some (Exc OverflowError)) []
| e_name_as : forall id s, effect os (PyNameAs id (PyStr s)) None [NameAs id (Some s)]
| e_country : forall s, letters s -> effect os (PyAddCountry (PyStr s)) None [AddCountry (Some s)]
| e_no_country : forall s, ~ letters s -> effect os (PyAddCountry (PyStr s)) (Some (Exc SystemError)) []
| e_name_country : forall id s, effect os (PyNameCountry id (PyStr s)) None [NameCountry id (Some s)]
| e_continent : forall id s, length s = 2%nat -> effect os (PyContinent id (PyStr s)) None [SetContinent id (Some s)]
| e_no_continent : forall id s, length s <> 2%nat -> effect os (PyContinent id (PyStr s)) (Some (Exc ValueError)) []
| e_net : forall s n sets e a, network_new_from_string (Some s) = Ok n -> (forall x, In x (given os) -> same_block n x = false) -> sets_to sets e a ->
    effect os (PyAddNet (PyStr s) sets) e [AddNet n; SetNet n a]
| e_net_twice : forall s n x sets, network_new_from_string (Some s) = Ok n -> In x (given os) -> same_block n x = true ->
    effect os (PyAddNet (PyStr s) sets) (Some IndexError) []
| e_no_net : forall s sets, network_new_from_string (Some s) = Err 1 -> effect os (PyAddNet (PyStr s) sets) (Some (Exc SystemError)) [].
(** a script, after the calls [os] *)
Inductive effects : list call -> list pystmt -> list (option wexc) -> list call -> Prop :=
| effects_none : forall os, effects os [] [] []
| effects_more : forall os s l e es o o', effect os s e o -> effects (os ++ o) l es o' -> effects os (s :: l) (e :: es) (o ++ o').

(** ** What a script has assigned last *)
Definition text_of (v : pyval) (before : cstr) : cstr := match v with PyStr s => s | _ => before end.
Definition last_vendor (l : list pystmt) : cstr := fold_left (fun t s => match s with PyVendor v => text_of v t | _ => t end) l [].
Definition last_description (l : list pystmt) : cstr := fold_left (fun t s => match s with PyDescription v => text_of v t | _ => t end) l [].
Definition last_license (l : list pystmt) : cstr := fold_left (fun t s => match s with PyLicense v => text_of v t | _ => t end) l [].
(** the ASes that it has added: numbers from 2^31 are refused *)
Definition added_as (l : list pystmt) (n : N) : Prop := n < 2 ^ 31 /\ In (PyAddAs (PyInt (Z.of_N n))) l.
