(** Specification of a writer: what the calls of a program that fills and writes a
    database mean, without pools, offsets, arrays and trees. *)
From Coq Require Import NArith ZArith List Bool Arith Sorting.Sorted.
From Verif Require Import Base ModelAddress ModelCountryCode ModelNetwork ModelTree ModelStringPool ModelObjects
  ModelFile ModelWriter SpecNetwork SpecStringPool SpecTree.
Import ListNotations.
Open Scope N_scope.

(** One call of loc_writer_write: the time, the version, what the file held before
    and what happens to be in the octets that are not initialised. *)
Record save := mkSave {
  s_now : N; s_version : N; s_old : list N;
  s_hole : nat -> N * N * (N * N); s_block0 : cc2
}.

(** The calls. Objects returned by the add functions are named by their number
    (0, 1, 2, ... for successful calls). *)
Inductive call :=
| SetVendor (s : option cstr)
| SetDescription (s : option cstr)
| SetLicense (s : option cstr)
| AddAs (number : N)
| NameAs (id : nat) (s : option cstr)
| AddCountry (code : option cstr)
| NameCountry (id : nat) (s : option cstr)
| SetContinent (id : nat) (s : option cstr)
| AddNet (n : network)
| SetNet (n : network) (a : cc2 * N * N)
| Save (x : save).

Definition opt_cstr (s : option cstr) : Prop := match s with Some s => is_cstr s | None => True end.
Definition call_ok (o : call) : Prop :=
  match o with
  | SetVendor s | SetDescription s | SetLicense s | NameAs _ s | NameCountry _ s | SetContinent _ s => opt_cstr s
  | AddAs n => n < 2 ^ 32
  | AddCountry _ => True
  | AddNet n => valid_network n
  | SetNet n a => valid_network n /\ attributes_ok a
  | Save _ => True
  end.

(** What the writer does: a call that fails changes nothing. *)
Definition or_unchanged (w : writer) (r : outcome writer) : outcome writer :=
  match r with Err _ => Ok w | r => r end.
Section Run.
Variable ctz0 : nat.
Variable held : network -> bool.
Variable key1 key2 : option evp.

Definition write_to (w : writer) (x : save) : outcome (Z * writer * list N) :=
  writer_write ctz0 held key1 key2 (s_hole x) (s_block0 x) w (s_old x) (s_now x) (s_version x).

Definition step (w : writer) (o : call) : outcome writer :=
  match o with
  | SetVendor s => or_unchanged w (set_vendor w s)
  | SetDescription s => or_unchanged w (set_description w s)
  | SetLicense s => or_unchanged w (set_license w s)
  | AddAs n => or_unchanged w (writer_add_as w n)
  | NameAs id s => Ok (name_as w id s)
  | AddCountry code => or_unchanged w (writer_add_country w code)
  | NameCountry id s => or_unchanged w (name_country w id s)
  | SetContinent id s => or_unchanged w (continent_country w id s)
  | AddNet n => Ok (with_tree w (fst (tree_add (w_tree w) n)))
  | SetNet n a => Ok (with_tree w (change (w_tree w) n a))
  | Save x => do (_, w, _) <- write_to w x; Ok w
  end.
Fixpoint run (w : writer) (os : list call) : outcome writer :=
  match os with
  | [] => Ok w
  | o :: os' => do w <- step w o; run w os'
  end.
(** A new writer and then the calls. *)
Definition program (os : list call) : outcome writer := do w <- writer_new; run w os.
End Run.

(** What it means. *)
Record an_as := mkAnAs { as_no : nat; the_number : N; the_name : option cstr }.
Record a_country := mkACountry { country_no : nat; the_code : cstr; the_continent : option cstr; the_country_name : option cstr }.
Record contents := mkContents {
  vendor : cstr; description : cstr; license : cstr;
  ases : list an_as;          (* in the order of addition *)
  countries : list a_country; (* in the order of addition *)
  next_object : nat
}.
Definition nothing : contents := mkContents [] [] [] [] [] 0.

(** Country codes: two letters A to Z, the first one not X. *)
Definition country_code (s : option cstr) : option cstr :=
  match s with
  | Some [a; b] => if (65 <=? a) && (a <=? 90) && (65 <=? b) && (b <=? 90) && negb (a =? 88) then Some [a; b] else None
  | _ => None
  end.
Definition string_eqb (a b : cstr) : bool := if list_eq_dec N.eq_dec a b then true else false.

Definition means (c : contents) (o : call) : contents :=
  match o with
  | SetVendor (Some s) => mkContents s (description c) (license c) (ases c) (countries c) (next_object c)
  | SetDescription (Some s) => mkContents (vendor c) s (license c) (ases c) (countries c) (next_object c)
  | SetLicense (Some s) => mkContents (vendor c) (description c) s (ases c) (countries c) (next_object c)
  | AddAs n =>
      mkContents (vendor c) (description c) (license c)
        (if existsb (fun a => the_number a =? n) (ases c) then ases c else ases c ++ [mkAnAs (next_object c) n None])
        (countries c) (S (next_object c))
  | NameAs id s =>
      mkContents (vendor c) (description c) (license c)
        (map (fun a => if (as_no a =? id)%nat then mkAnAs (as_no a) (the_number a) s else a) (ases c))
        (countries c) (next_object c)
  | AddCountry code =>
      match country_code code with
      | None => c
      | Some code =>
          mkContents (vendor c) (description c) (license c) (ases c)
            (if existsb (fun x => string_eqb (the_code x) code) (countries c) then countries c
             else countries c ++ [mkACountry (next_object c) code None None])
            (S (next_object c))
      end
  | NameCountry id s =>
      mkContents (vendor c) (description c) (license c) (ases c)
        (map (fun x => if (country_no x =? id)%nat
                       then mkACountry (country_no x) (the_code x) (the_continent x) s else x) (countries c))
        (next_object c)
  | SetContinent id (Some [a; b]) =>
      mkContents (vendor c) (description c) (license c) (ases c)
        (map (fun x => if (country_no x =? id)%nat
                       then mkACountry (country_no x) (the_code x) (Some [a; b]) (the_country_name x) else x) (countries c))
        (next_object c)
  | _ => c
  end.
Definition meaning (os : list call) : contents := fold_left means os nothing.

(** The continent codes that end up in the file: a country without one gets the
    one of the country before it, the first one whatever [before] is. *)
Fixpoint continents_read (before : option cstr) (l : list a_country) : list (option cstr) :=
  match l with
  | [] => []
  | x :: l' =>
      let here := match the_continent x with None => before | s => s end in
      here :: continents_read here l'
  end.

(** Two codes of two letters in alphabetical order *)
Definition code_before (s t : cstr) : Prop :=
  match s, t with
  | [a; b], [c; e] => a < c \/ (a = c /\ b < e)
  | _, _ => False
  end.

Definition countries_in_order (c : contents) : Prop :=
  StronglySorted (fun x y => code_before (the_code x) (the_code y)) (countries c).

(** The calls that concern networks, as in SpecTree. *)
Definition network_ops (o : call) : list wop :=
  match o with
  | AddNet n => [AddNetwork n]
  | SetNet n a => [SetAttributes n a]
  | Save x => if (s_version x =? 0) || (s_version x =? VERSION_1) then [CleanUp] else []
  | _ => []
  end.

(** A network as it comes out of a database file: the flags have 16 bits there, and
    the second octet of an empty country code is lost. *)
Definition as_read (x : network) : network :=
  mkNet (n_family x) (n_first x) (n_last x) (n_prefix x)
    (if fst (n_cc x) =? 0 then (0, 0) else n_cc x) (n_asn x) (n_flags x mod 2 ^ 16).

(** [x] is in [S], contains the address [v], and no smaller network of [S] lies in
    the half of [x] where [v] is. *)
Definition reached (S : list network) (v : N) (x : network) : Prop :=
  In x S /\ member x v /\
  forall y, In y S -> (n_prefix x < n_prefix y)%nat -> ~ agree (n_prefix x + 1) (num (n_first y)) v.

(** The networks a program has added, if it does not write in between. *)
Definition no_save (o : call) : Prop := match o with Save _ => False | _ => True end.
Definition given (os : list call) : list network := fst (set_run [] (flat_map network_ops os)).
