(** C46, C50: AS lists, country lists and the names of countries. *)
From Coq Require Import NArith ZArith List Bool Arith Lia Permutation Sorting.Sorted.
From Verif Require Import Base ModelCountryCode ModelObjects SpecObjects LemmasObjects.
Import ListNotations.
Open Scope N_scope.

(** Any sequence of appends to an empty AS list stays inside the allocation; the
    list holds the first AS of every number in order of insertion, the membership
    tests know exactly the numbers that were appended, sorting is ascending and
    loses nothing. *)
Theorem C46_as_list : forall xs, exists l, append_all as_cmp olist_new xs = Ok l /\
  ol_elems l = first_occurrences as_number [] xs /\
  N.of_nat (length (ol_elems l)) <= ol_cap l /\
  (forall n, as_list_contains_number l n = true <-> In n (map as_number xs)) /\
  (forall x, olist_contains as_cmp l x = true <-> In (as_number x) (map as_number xs)) /\
  ascending as_number (ol_elems (olist_sort as_cmp l)) /\ Permutation (ol_elems (olist_sort as_cmp l)) (ol_elems l).
Proof. exact as_list_facts. Qed.
Print Assumptions C46_as_list.

(** Whatever sorting algorithm qsort uses, the result is the one of the model. *)
Theorem C46_as_sort_unique : forall xs l l', append_all as_cmp olist_new xs = Ok l ->
  Permutation (ol_elems l) l' -> StronglySorted (fun x y => (as_cmp x y <= 0)%Z) l' ->
  l' = ol_elems (olist_sort as_cmp l).
Proof. exact as_sort_unique. Qed.
Print Assumptions C46_as_sort_unique.

Example C46_as_case :
  let xs := [as_set_name (as_new 0 7) (Some [65]); as_new 1 3; as_set_name (as_new 2 7) (Some [66]); as_new 3 4] in
  first_occurrences as_number [] xs = [as_set_name (as_new 0 7) (Some [65]); as_new 1 3; as_new 3 4] /\
  exists l, append_all as_cmp olist_new xs = Ok l /\
    map as_number (ol_elems (olist_sort as_cmp l)) = [3; 4; 7] /\
    as_list_contains_number l 4 = true /\ as_list_contains_number l 5 = false.
Proof. cbv zeta. split; [reflexivity|]. eexists. split; [reflexivity|]. auto. Qed.

(** The same for country lists. A country object always has a code of two letters
    (C46_country_new). *)
Theorem C46_country_list : forall xs, Forall (fun c => two_letters (c_code c)) xs ->
  exists l, append_all country_cmp olist_new xs = Ok l /\
  ol_elems l = first_occurrences (fun c => code_number (c_code c)) [] xs /\
  N.of_nat (length (ol_elems l)) <= ol_cap l /\
  (forall s, country_list_contains_code l (Some s) = Ok true <->
     cc_is_valid (Some s) = true /\ exists x, In x xs /\ cc_str (c_code x) = s) /\
  (forall s, country_list_contains_code l (Some s) = Ok true \/ country_list_contains_code l (Some s) = Ok false) /\
  ascending (fun c => code_number (c_code c)) (ol_elems (olist_sort country_cmp l)) /\
  Permutation (ol_elems (olist_sort country_cmp l)) (ol_elems l).
Proof. exact country_list_facts. Qed.
Print Assumptions C46_country_list.

Theorem C46_country_sort_unique : forall xs l l', Forall (fun c => two_letters (c_code c)) xs ->
  append_all country_cmp olist_new xs = Ok l ->
  Permutation (ol_elems l) l' -> StronglySorted (fun x y => (country_cmp x y <= 0)%Z) l' ->
  l' = ol_elems (olist_sort country_cmp l).
Proof. exact country_sort_unique. Qed.
Print Assumptions C46_country_sort_unique.

Theorem C46_country_new : forall id s, cc_is_valid (Some s) = true ->
  exists c, country_new id (Some s) = Ok c /\ two_letters (c_code c) /\ cc_str (c_code c) = s /\ c_id c = id /\
    c_continent c = (0, 0) /\ c_name c = NoName.
Proof. exact country_new_spec. Qed.
Print Assumptions C46_country_new.

Example C46_country_case :
  exists de fr de2 at_, country_new 0 (Some [68; 69]) = Ok de /\ country_new 1 (Some [70; 82]) = Ok fr /\
  country_new 2 (Some [68; 69]) = Ok de2 /\ country_new 3 (Some [65; 84]) = Ok at_ /\
  exists l, append_all country_cmp olist_new [de; fr; de2; at_] = Ok l /\ ol_elems l = [de; fr; at_] /\
    ol_elems (olist_sort country_cmp l) = [at_; de; fr] /\
    country_list_contains_code l (Some [70; 82]) = Ok true /\ country_list_contains_code l (Some [67; 72]) = Ok false.
Proof.
  do 4 eexists. split; [reflexivity|]. split; [reflexivity|]. split; [reflexivity|]. split; [reflexivity|].
  eexists. split; [reflexivity|]. split; [reflexivity|]. split; [reflexivity|]. split; reflexivity.
Qed.

(** As long as no name is NULL, the name can be read (it is the last one set) and
    the object released. Missing from C50: NULL. *)
Theorem C50_country_names_partial : forall id s names c, country_new id (Some s) = Ok c -> ~ In None names ->
  exists c', set_names c names = Ok c' /\ c_code c' = c_code c /\
    country_get_name c' = Ok (last names None) /\ country_free c' = Ok tt.
Proof. exact set_names_new. Qed.
Print Assumptions C50_country_names_partial.

(** After loc_country_set_name(c, "A") and loc_country_set_name(c, NULL) reading the
    name, setting another one and releasing the country touch freed memory. *)
Theorem C50_country_names_refuted : exists c c', country_new 0 (Some [68; 69]) = Ok c /\
  set_names c [Some [65]; None] = Ok c' /\ country_get_name c' = UB /\ country_free c' = UB /\
  set_names c [Some [65]; None; Some [66]] = UB.
Proof. do 2 eexists. split; [reflexivity|]. split; [reflexivity|]. split; [reflexivity|]. split; reflexivity. Qed.
Print Assumptions C50_country_names_refuted.

(** NULL is the only cause: exactly the sequences with a NULL after a name fail. *)
Theorem C50_dangling_condition : forall id s names c, country_new id (Some s) = Ok c ->
  (exists c', set_names c names = Ok c' /\ country_free c' = Ok tt) <->
  ~ exists a x b, names = a ++ Some x :: None :: b.
Proof. exact set_names_iff. Qed.
Print Assumptions C50_dangling_condition.

Example C50_case : exists c, country_new 0 (Some [68; 69]) = Ok c /\
  exists c', set_names c [None; Some [65]; Some [66]] = Ok c' /\ country_get_name c' = Ok (Some [66]) /\
  country_free c' = Ok tt.
Proof. eexists. split; [reflexivity|]. eexists. split; [reflexivity|]. split; reflexivity. Qed.
