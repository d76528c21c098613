(** Looking up addresses, reading files that may be malformed, writing twice
    (C20, C21, C22, C29, C30, C42, C45).

    [lookup beyond d a fuel]: [beyond i] says what reading and writing bit [i] of an
    address gives for [i] >= 128 (None: undefined behaviour), [fuel] is the number of
    nodes that may be visited. *)
From Coq Require Import NArith ZArith List Bool Arith Lia.
From Verif Require Import Base LemmasBase ModelAddress ModelCountryCode ModelNetwork ModelTree ModelStringPool ModelObjects
  ModelFile ModelWriter ModelDatabase SpecNetwork SpecStringPool SpecObjects SpecTree SpecWriter
  LemmasTreeProps LemmasDbProps LemmasLookupDb LemmasSafe LemmasTwice PropsDatabase.
Import ListNotations.
Open Scope N_scope.

(** ** C20 *)
(** Partial: if a network is found, then it contains the address and has the
    attributes of the most specific network that was added and contains it. *)
Theorem C20_found_partial : forall ctz0 held key1 key2 os w x w' f d,
  Forall call_ok os -> Forall no_save os ->
  program ctz0 held key1 key2 os = Ok w ->
  write_to ctz0 held key1 key2 w x = Ok (0%Z, w', f) ->
  N.of_nat (length f) < 2 ^ 32 -> s_now x < 2 ^ 64 -> db_open f = Ok d ->
  forall beyond fuel a y r, is_addr a -> (129 <= fuel)%nat -> lookup beyond d a fuel = Ok (Some y, r) ->
  r = 0%Z /\ member y (num a) /\
  exists z, most_specific (given os) (num a) z /\
    get_country_code y = get_country_code z /\ n_asn y = n_asn z /\ n_flags y = n_flags z mod 2 ^ 16.
Proof. exact given_sound. Qed.
Print Assumptions C20_found_partial.

(** Nothing is found if no network contains the address. *)
Theorem C20_nothing_partial : forall ctz0 held key1 key2 os w x w' f d,
  Forall call_ok os -> Forall no_save os ->
  program ctz0 held key1 key2 os = Ok w ->
  write_to ctz0 held key1 key2 w x = Ok (0%Z, w', f) ->
  N.of_nat (length f) < 2 ^ 32 -> s_now x < 2 ^ 64 -> db_open f = Ok d ->
  forall beyond fuel a, is_addr a -> (129 <= fuel)%nat ->
  (forall y, In y (given os) -> ~ member y (num a)) -> lookup beyond d a fuel = Ok (None, 0%Z).
Proof. exact given_nothing. Qed.
Print Assumptions C20_nothing_partial.

(** The converse, if no network is inside another one: the network is found, except
    for undefined behaviour (C22) and IPv4 addresses in IPv6 networks. *)
Theorem C20_not_nested_partial : forall ctz0 held key1 key2 os w x w' f d,
  Forall call_ok os -> Forall no_save os ->
  program ctz0 held key1 key2 os = Ok w ->
  write_to ctz0 held key1 key2 w x = Ok (0%Z, w', f) ->
  N.of_nat (length f) < 2 ^ 32 -> s_now x < 2 ^ 64 -> db_open f = Ok d ->
  forall beyond fuel a z, is_addr a -> (129 <= fuel)%nat ->
  (forall y z, In y (given os) -> In z (given os) -> ~ encloses y z) ->
  In z (given os) -> member z (num a) ->
  (is_ipv4 (num a) -> n_family z = AF_INET) ->
  lookup beyond d a fuel = UB \/
  exists y, lookup beyond d a fuel = Ok (Some y, 0%Z) /\ member y (num a) /\
    get_country_code y = get_country_code z /\ n_asn y = n_asn z /\ n_flags y = n_flags z mod 2 ^ 16.
Proof. exact given_complete. Qed.
Print Assumptions C20_not_nested_partial.

(** Exactly what is found, in terms of the networks that are left after the
    clean-up: the network in whose half with the address there is no smaller one. *)
Theorem C20_exact_partial : forall ctz0 held key1 key2 os w x w' f d,
  Forall call_ok os ->
  program ctz0 held key1 key2 os = Ok w ->
  write_to ctz0 held key1 key2 w x = Ok (0%Z, w', f) ->
  N.of_nat (length f) < 2 ^ 32 -> s_now x < 2 ^ 64 -> db_open f = Ok d ->
  forall beyond fuel a, is_addr a -> (129 <= fuel)%nat ->
  (beyond 128%nat = None -> forall y, In y (stored (w_tree w')) -> n_prefix y = 128%nat -> num (n_first y) <> num a) ->
  exists n, lookup beyond d a fuel = Ok (n, 0%Z) /\
  match n with
  | Some y => exists z, reached (stored (w_tree w')) (num a) z /\ y = as_read z /\ ~ (is_ipv4 (num a) /\ n_prefix z = 95%nat)
  | None => forall z, reached (stored (w_tree w')) (num a) z -> is_ipv4 (num a) /\ n_prefix z = 95%nat
  end.
Proof. exact lookup_exact. Qed.
Print Assumptions C20_exact_partial.

(** C20 is false: 10.1.0.0/16 hides 10.0.0.0/8 from 10.0.0.1. *)
Definition ip4 (a b c e : N) : addr := [0;0;0;0;0;0;0;0;0;0;255;255;a;b;c;e].
Definition at_de : cc2 * N * N := ((68, 69), 64496, 0).
Definition at_fr : cc2 * N * N := ((70, 82), 64497, 4).
Definition nested : list call := [AddNet (net_of_addr (ip4 10 0 0 0) 8 at_de); AddNet (net_of_addr (ip4 10 1 0 0) 16 at_fr)].
Definition is_found (r : outcome (option network * Z)) (c : cstr) (asn flags : N) : bool :=
  match r with
  | Ok (Some y, 0%Z) => cstr_eqb (get_country_code y) c && (n_asn y =? asn) && (n_flags y =? flags)
  | _ => false
  end.
Definition not_found (r : outcome (option network * Z)) : bool := match r with Ok (None, 0%Z) => true | _ => false end.

Theorem C20_lookup_refuted : exists os x a z,
  Forall call_ok os /\ Forall no_save os /\ is_addr a /\ most_specific (given os) (num a) z /\ n_family z = AF_INET /\
  exists w w' f d, program 8 (fun _ => true) None None os = Ok w /\
    write_to 8 (fun _ => true) None None w x = Ok (0%Z, w', f) /\
    N.of_nat (length f) < 2 ^ 32 /\ s_now x < 2 ^ 64 /\ db_open f = Ok d /\
    not_found (lookup (fun _ => None) d a 129) = true.
Proof.
  exists nested, save0, (ip4 10 0 0 1), (net_of_addr (ip4 10 0 0 0) 8 at_de).
  split; [calls|]. split; [repeat constructor|]. split; [split; [reflexivity|repeat constructor]|].
  split; [|split; [vm_compute; reflexivity|]].
  - assert (E : given nested = [net_of_addr (ip4 10 1 0 0) 16 at_fr; net_of_addr (ip4 10 0 0 0) 8 at_de]) by (vm_compute; reflexivity).
    rewrite E. split; [right; left; reflexivity|]. split; [split; vm_compute; discriminate|].
    intros y [<-|[<-|[]]] [H _]; [exfalso; revert H; vm_compute; auto|apply le_n].
  - apply a_case. vm_compute. reflexivity.
Qed.
Print Assumptions C20_lookup_refuted.

(** A case of the theorems above. *)
Definition calls1 : list call :=
  [AddNet (net_of_addr (ip4 10 0 0 0) 9 at_de); AddNet (net_of_addr (ip4 10 128 0 0) 9 at_de);
   AddNet (net_of_addr (ip4 10 1 0 0) 16 at_fr);
   AddNet (net_of_addr [32;1;13;184;0;0;0;0;0;0;0;0;0;0;0;0] 32 at_fr);
   AddNet (net_of_addr (ip4 192 168 0 1) 32 at_fr)].
Example C20_case : Forall call_ok calls1 /\ Forall no_save calls1 /\
  exists w w' f d, program 8 (fun _ => true) None None calls1 = Ok w /\
    write_to 8 (fun _ => true) None None w save0 = Ok (0%Z, w', f) /\
    N.of_nat (length f) < 2 ^ 32 /\ s_now save0 < 2 ^ 64 /\ db_open f = Ok d /\
    (is_found (lookup (fun _ => None) d (ip4 10 1 2 3) 129) [70; 82] 64497 4 &&
     is_found (lookup (fun _ => None) d [32;1;13;184;0;0;0;0;0;0;0;0;0;0;0;1] 129) [70; 82] 64497 4 &&
     is_found (lookup (fun _ => None) d (ip4 10 200 2 3) 129) [68; 69] 64496 0 &&
     not_found (lookup (fun _ => None) d (ip4 11 0 0 0) 129))%bool = true.
Proof. split; [calls|]. split; [repeat constructor|]. apply a_case. vm_compute. reflexivity. Qed.

(** not nested *)
Definition calls2 : list call :=
  [AddNet (net_of_addr (ip4 10 0 0 0) 9 at_de); AddNet (net_of_addr (ip4 10 192 0 0) 16 at_fr)].
Example C20_not_nested_case : Forall call_ok calls2 /\ Forall no_save calls2 /\
  (forall y z, In y (given calls2) -> In z (given calls2) -> ~ encloses y z) /\
  exists w w' f d, program 8 (fun _ => true) None None calls2 = Ok w /\
    write_to 8 (fun _ => true) None None w save0 = Ok (0%Z, w', f) /\
    N.of_nat (length f) < 2 ^ 32 /\ s_now save0 < 2 ^ 64 /\ db_open f = Ok d /\
    is_found (lookup (fun _ => None) d (ip4 10 127 2 3) 129) [68; 69] 64496 0 = true.
Proof.
  split; [calls|]. split; [repeat constructor|]. split; [|apply a_case; vm_compute; reflexivity].
  assert (E : given calls2 = [net_of_addr (ip4 10 192 0 0) 16 at_fr; net_of_addr (ip4 10 0 0 0) 9 at_de]) by (vm_compute; reflexivity).
  rewrite E. intros y z [<-|[<-|[]]] [<-|[<-|[]]] [H M]; try (revert H; vm_compute; lia).
  specialize (M (num (ip4 10 192 0 0))). destruct M as [_ M]; [split; vm_compute; discriminate|]. revert M. vm_compute. auto.
Qed.

(** ** C42 *)
(** Partial: flags beyond 16 bits are lost. *)
Theorem C42_attributes_partial : forall ctz0 held key1 key2 os w x w' f d,
  Forall call_ok os -> Forall no_save os ->
  program ctz0 held key1 key2 os = Ok w ->
  write_to ctz0 held key1 key2 w x = Ok (0%Z, w', f) ->
  N.of_nat (length f) < 2 ^ 32 -> s_now x < 2 ^ 64 -> db_open f = Ok d ->
  forall beyond fuel a y r, is_addr a -> (129 <= fuel)%nat ->
  (forall z, In z (given os) -> n_flags z < 2 ^ 16) ->
  lookup beyond d a fuel = Ok (Some y, r) ->
  exists z, most_specific (given os) (num a) z /\
    get_country_code y = get_country_code z /\ n_asn y = n_asn z /\ n_flags y = n_flags z.
Proof. exact given_attributes. Qed.
Print Assumptions C42_attributes_partial.

Example C42_case : forall z, In z (given calls1) -> n_flags z < 2 ^ 16.
Proof.
  assert (E : map n_flags (given calls1) = [4; 4; 4; 0; 0]) by (vm_compute; reflexivity).
  intros z I. apply (in_map n_flags) in I. rewrite E in I. cbn in I. lia.
Qed.

Theorem C42_attributes_refuted : exists os x a z,
  Forall call_ok os /\ Forall no_save os /\ is_addr a /\ most_specific (given os) (num a) z /\ n_flags z = 2 ^ 16 + 1 /\
  exists w w' f d, program 8 (fun _ => true) None None os = Ok w /\
    write_to 8 (fun _ => true) None None w x = Ok (0%Z, w', f) /\
    N.of_nat (length f) < 2 ^ 32 /\ s_now x < 2 ^ 64 /\ db_open f = Ok d /\
    is_found (lookup (fun _ => None) d a 129) [68; 69] 64496 1 = true.
Proof.
  pose (n := net_of_addr (ip4 10 0 0 0) 8 ((68, 69), 64496, 2 ^ 16 + 1)).
  exists [AddNet n], save0, (ip4 10 0 0 1), n. unfold n.
  split; [calls|]. split; [repeat constructor|]. split; [split; [reflexivity|repeat constructor]|].
  split; [|split; [vm_compute; reflexivity|]].
  - match goal with |- most_specific (given [AddNet ?m]) _ _ => assert (E : given [AddNet m] = [m]) by (vm_compute; reflexivity) end.
    rewrite E. split; [left; reflexivity|]. split; [split; vm_compute; discriminate|].
    intros y [<-|[]] _. apply le_n.
  - apply a_case. vm_compute. reflexivity.
Qed.
Print Assumptions C42_attributes_refuted.

(** ** C45 *)
Theorem C45_twice : forall ctz0 held key1 key2 os w x1 x2 w1 w2 f1 f2 d1 d2,
  Forall call_ok os ->
  program ctz0 held key1 key2 os = Ok w ->
  write_to ctz0 held key1 key2 w x1 = Ok (0%Z, w1, f1) ->
  write_to ctz0 held key1 key2 w1 x2 = Ok (0%Z, w2, f2) ->
  N.of_nat (length f1) < 2 ^ 32 -> N.of_nat (length f2) < 2 ^ 32 -> s_now x1 < 2 ^ 64 -> s_now x2 < 2 ^ 64 ->
  db_open f1 = Ok d1 -> db_open f2 = Ok d2 ->
  get_vendor d1 = get_vendor d2 /\ get_description d1 = get_description d2 /\ get_license d1 = get_license d2 /\
  count_as d1 = count_as d2.
Proof. exact twice_strings. Qed.
Print Assumptions C45_twice.

Theorem C45_ases : forall ctz0 held key1 key2 os w x1 x2 w1 w2 f1 f2 d1 d2,
  Forall call_ok os ->
  program ctz0 held key1 key2 os = Ok w ->
  write_to ctz0 held key1 key2 w x1 = Ok (0%Z, w1, f1) ->
  write_to ctz0 held key1 key2 w1 x2 = Ok (0%Z, w2, f2) ->
  N.of_nat (length f1) < 2 ^ 32 -> N.of_nat (length f2) < 2 ^ 32 -> s_now x1 < 2 ^ 64 -> s_now x2 < 2 ^ 64 ->
  db_open f1 = Ok d1 -> db_open f2 = Ok d2 ->
  forall n,
  match get_as d1 n, get_as d2 n with
  | Ok y, Ok z => as_number y = as_number z /\ as_name y = as_name z
  | Err c, Err e => c = e
  | _, _ => False
  end.
Proof. exact twice_as. Qed.
Print Assumptions C45_ases.

Theorem C45_countries : forall ctz0 held key1 key2 os w x1 x2 w1 w2 f1 f2 d1 d2,
  Forall call_ok os ->
  program ctz0 held key1 key2 os = Ok w ->
  write_to ctz0 held key1 key2 w x1 = Ok (0%Z, w1, f1) ->
  write_to ctz0 held key1 key2 w1 x2 = Ok (0%Z, w2, f2) ->
  N.of_nat (length f1) < 2 ^ 32 -> N.of_nat (length f2) < 2 ^ 32 -> s_now x1 < 2 ^ 64 -> s_now x2 < 2 ^ 64 ->
  db_open f1 = Ok d1 -> db_open f2 = Ok d2 ->
  snd (d_countries d1) = snd (d_countries d2) /\
  forall i, i < snd (d_countries d1) -> exists y z, fetch_country d1 i = Ok y /\ fetch_country d2 i = Ok z /\
    cc_str (c_code y) = cc_str (c_code z) /\ country_get_name y = country_get_name z /\
    (s_block0 x1 = s_block0 x2 -> country_get_continent_code y = country_get_continent_code z).
Proof. exact twice_countries. Qed.
Print Assumptions C45_countries.

(** Partial: about addresses that are found in both files. Others may be found only in one of
    them, see [C45_lookup_refuted]. *)
Theorem C45_lookup_partial : forall ctz0 held key1 key2 os w x1 x2 w1 w2 f1 f2 d1 d2,
  Forall call_ok os ->
  program ctz0 held key1 key2 os = Ok w ->
  write_to ctz0 held key1 key2 w x1 = Ok (0%Z, w1, f1) ->
  write_to ctz0 held key1 key2 w1 x2 = Ok (0%Z, w2, f2) ->
  N.of_nat (length f1) < 2 ^ 32 -> N.of_nat (length f2) < 2 ^ 32 -> s_now x1 < 2 ^ 64 -> s_now x2 < 2 ^ 64 ->
  db_open f1 = Ok d1 -> db_open f2 = Ok d2 ->
  forall beyond fuel a y1 y2 r1 r2, is_addr a -> (129 <= fuel)%nat ->
  lookup beyond d1 a fuel = Ok (Some y1, r1) -> lookup beyond d2 a fuel = Ok (Some y2, r2) ->
  get_country_code y1 = get_country_code y2 /\ n_asn y1 = n_asn y2 /\ n_flags y1 = n_flags y2.
Proof. exact twice_lookup. Qed.
Print Assumptions C45_lookup_partial.

(** If no network is inside another one, the same addresses are found (where both calls
    are defined, C22). *)
Theorem C45_not_nested_partial : forall ctz0 held key1 key2 os w x1 x2 w1 w2 f1 f2 d1 d2,
  Forall call_ok os ->
  program ctz0 held key1 key2 os = Ok w ->
  write_to ctz0 held key1 key2 w x1 = Ok (0%Z, w1, f1) ->
  write_to ctz0 held key1 key2 w1 x2 = Ok (0%Z, w2, f2) ->
  N.of_nat (length f1) < 2 ^ 32 -> N.of_nat (length f2) < 2 ^ 32 -> s_now x1 < 2 ^ 64 -> s_now x2 < 2 ^ 64 ->
  db_open f1 = Ok d1 -> db_open f2 = Ok d2 ->
  forall beyond fuel a n1 r1 n2 r2, Forall no_save os -> is_addr a -> (129 <= fuel)%nat ->
  (forall y z, In y (given os) -> In z (given os) -> ~ encloses y z) ->
  (is_ipv4 (num a) -> forall z, In z (given os) -> member z (num a) -> n_family z = AF_INET) ->
  lookup beyond d1 a fuel = Ok (n1, r1) -> lookup beyond d2 a fuel = Ok (n2, r2) ->
  match n1, n2 with
  | Some y1, Some y2 => get_country_code y1 = get_country_code y2 /\ n_asn y1 = n_asn y2 /\ n_flags y1 = n_flags y2
  | None, None => forall z, In z (given os) -> ~ member z (num a)
  | _, _ => False
  end.
Proof. exact twice_given. Qed.
Print Assumptions C45_not_nested_partial.

(** [calls2] meets the hypotheses (C20_not_nested_case); one address that is found and one
    that is not *)
Example C45_not_nested_case :
  match program 8 (fun _ => true) None None calls2 with
  | Ok w => match write_to 8 (fun _ => true) None None w save0 with
    | Ok (0%Z, w1, f1) => match write_to 8 (fun _ => true) None None w1 save0 with
      | Ok (0%Z, w2, f2) => match db_open f1, db_open f2 with
         | Ok d1, Ok d2 =>
            is_found (lookup (fun _ => None) d1 (ip4 10 127 2 3) 129) [68; 69] 64496 0 &&
            is_found (lookup (fun _ => None) d2 (ip4 10 127 2 3) 129) [68; 69] 64496 0 &&
            not_found (lookup (fun _ => None) d1 (ip4 10 128 0 0) 129) &&
            not_found (lookup (fun _ => None) d2 (ip4 10 128 0 0) 129)
         | _, _ => false end
      | _ => false end
    | _ => false end
  | _ => false
  end = true.
Proof. vm_compute. reflexivity. Qed.

(** C45 is false. 10.0.0.0/9 and 10.128.0.0/9 are merged after 10.0.0.0/10 and 10.64.0.0/10, which could
    not be merged because of 10.0.0.0/9; the second write merges these, and then 10.0.0.0/16 hides the
    result from 10.32.0.1. *)
Definition at_it : cc2 * N * N := ((73, 84), 64498, 0).
Definition merged_late : list call :=
  [AddNet (net_of_addr (ip4 10 0 0 0) 9 at_de); AddNet (net_of_addr (ip4 10 128 0 0) 9 at_de);
   AddNet (net_of_addr (ip4 10 0 0 0) 10 at_fr); AddNet (net_of_addr (ip4 10 64 0 0) 10 at_fr);
   AddNet (net_of_addr (ip4 10 0 0 0) 16 at_it)].
Theorem C45_lookup_refuted : exists os a w w1 f1 d1 w2 f2 d2,
  Forall call_ok os /\ is_addr a /\
  program 8 (fun _ => true) None None os = Ok w /\
  write_to 8 (fun _ => true) None None w save0 = Ok (0%Z, w1, f1) /\ db_open f1 = Ok d1 /\
  write_to 8 (fun _ => true) None None w1 save0 = Ok (0%Z, w2, f2) /\ db_open f2 = Ok d2 /\
  is_found (lookup (fun _ => None) d1 a 129) [70; 82] 64497 4 = true /\
  not_found (lookup (fun _ => None) d2 a 129) = true.
Proof.
  exists merged_late, (ip4 10 32 0 1). do 7 eexists. split; [calls|]. split; [split; [reflexivity|repeat constructor]|].
  split; [vm_compute; reflexivity|]. split; [vm_compute; reflexivity|]. split; [vm_compute; reflexivity|].
  split; [vm_compute; reflexivity|]. split; [vm_compute; reflexivity|]. split; vm_compute; reflexivity.
Qed.
Print Assumptions C45_lookup_refuted.

(** Two writes at different times to files with different old contents *)
Example C45_case :
  let os := calls0 ++ calls1 in
  let x1 := save0 in let x2 := mkSave 1800000000 0 (repeat 9 5000) hole0 (65, 65) in
  Forall call_ok os /\
  match program 8 (fun _ => true) None None os with
  | Ok w => match write_to 8 (fun _ => true) None None w x1 with
    | Ok (0%Z, w1, f1) => match write_to 8 (fun _ => true) None None w1 x2 with
      | Ok (0%Z, w2, f2) => match db_open f1, db_open f2 with
         | Ok d1, Ok d2 => (N.of_nat (length f1) <? 2 ^ 32) && (N.of_nat (length f2) <? 2 ^ 32) &&
            is_found (lookup (fun _ => None) d1 (ip4 10 1 2 3) 129) [70; 82] 64497 4 &&
            is_found (lookup (fun _ => None) d2 (ip4 10 1 2 3) 129) [70; 82] 64497 4
         | _, _ => false end
      | _ => false end
    | _ => false end
  | _ => false
  end = true.
Proof. cbv zeta. split; [apply Forall_app; split; calls|]. vm_compute. reflexivity. Qed.

(** ** C21 *)
Theorem C21_lookup_contains : forall f d, N.of_nat (length f) < 2 ^ 63 -> Forall (fun o => o < 256) f -> db_open f = Ok d ->
  forall beyond fuel a n, is_addr a -> lookup beyond d a fuel = Ok (Some n, 0%Z) ->
  valid_network n /\ member n (num a).
Proof. exact any_contains. Qed.
Print Assumptions C21_lookup_contains.

(** Its return value is never positive when there is a network, so that 0 covers all
    calls that do not fail. *)
Theorem C21_return_value : forall f d, N.of_nat (length f) < 2 ^ 63 -> db_open f = Ok d ->
  forall beyond fuel a n r, is_addr a -> lookup beyond d a fuel = Ok (n, r) ->
  match n with Some _ => (r <= 0)%Z | None => (0 <= r)%Z end.
Proof. exact any_return. Qed.
Print Assumptions C21_return_value.

(** ** C22 *)
(** Partial: no read outside of the file, and none outside of the address within 128
    nodes. *)
Theorem C22_lookup_safe_partial : forall f d, N.of_nat (length f) < 2 ^ 63 -> db_open f = Ok d ->
  forall beyond fuel a, is_addr a ->
  (fuel <= 128)%nat \/ (forall i, (128 <= i < fuel)%nat -> beyond i <> None) ->
  lookup beyond d a fuel = Fuel \/ exists r, lookup beyond d a fuel = Ok r.
Proof. exact any_safe. Qed.
Print Assumptions C22_lookup_safe_partial.

(** Databases made by the writer: at most 129 nodes are visited, and the only read
    outside of the address is at bit 128 when a network of one address is looked up. *)
Theorem C22_written_partial : forall ctz0 held key1 key2 os w x w' f d,
  Forall call_ok os ->
  program ctz0 held key1 key2 os = Ok w ->
  write_to ctz0 held key1 key2 w x = Ok (0%Z, w', f) ->
  N.of_nat (length f) < 2 ^ 32 -> s_now x < 2 ^ 64 -> db_open f = Ok d ->
  forall beyond fuel a, is_addr a -> (129 <= fuel)%nat ->
  (exists n, lookup beyond d a fuel = Ok (n, 0%Z)) \/
  (lookup beyond d a fuel = UB /\ beyond 128%nat = None /\
   exists y, In y (stored (w_tree w')) /\ n_prefix y = 128%nat /\ num (n_first y) = num a).
Proof. exact lookup_written. Qed.
Print Assumptions C22_written_partial.

(** C22 is false: looking up 192.168.0.1 when it has been added as a network. *)
Theorem C22_lookup_refuted : exists os x a,
  Forall call_ok os /\ is_addr a /\
  exists w w' f d, program 8 (fun _ => true) None None os = Ok w /\
    write_to 8 (fun _ => true) None None w x = Ok (0%Z, w', f) /\
    N.of_nat (length f) < 2 ^ 32 /\ s_now x < 2 ^ 64 /\ db_open f = Ok d /\
    match lookup (fun _ => None) d a 129 with UB => true | _ => false end = true.
Proof.
  exists calls1, save0, (ip4 192 168 0 1). split; [calls|]. split; [split; [reflexivity|repeat constructor]|].
  apply a_case. vm_compute. reflexivity.
Qed.
Print Assumptions C22_lookup_refuted.

(** A header: the tree at offset 4200, the pool at 4224, everything else empty *)
Definition header (tree_len pool_len : N) : list N :=
  MAGIC ++ [1] ++ to_be 8 0 ++ to_be 4 0 ++ to_be 4 0 ++ to_be 4 0 ++ to_be 4 0 ++ to_be 4 0 ++ to_be 4 0 ++ to_be 4 0 ++
  to_be 4 4200 ++ to_be 4 tree_len ++ to_be 4 0 ++ to_be 4 0 ++ to_be 4 4224 ++ to_be 4 pool_len ++ repeat 0 4132.
Definition node_bytes (z o n : N) : list N := to_be 4 z ++ to_be 4 o ++ to_be 4 n.
(** node 1 is its own child *)
Definition cyclic : list N := header 24 0 ++ node_bytes 1 1 NO_NETWORK ++ node_bytes 1 1 NO_NETWORK.

(** Even if bits beyond the address could be read and written, it never ends. *)
Theorem C22_cycle_refuted : exists f d a, N.of_nat (length f) < 2 ^ 63 /\ db_open f = Ok d /\ is_addr a /\
  (forall fuel, lookup (fun _ => Some 0) d a fuel = Fuel) /\
  lookup (fun _ => None) d a 129 = UB.
Proof.
  exists cyclic. destruct (db_open cyclic) as [d| | |] eqn:E; [|exfalso; revert E; vm_compute; discriminate..].
  exists d, (repeat 0 16). split; [vm_compute; reflexivity|]. split; [reflexivity|].
  split; [split; [reflexivity|repeat constructor]|].
  assert (F0 : fetch_node d 0 = Ok (Some (1, 1, NO_NETWORK)) /\ fetch_node d 1 = Ok (Some (1, 1, NO_NETWORK)) /\ snd (d_tree d) = 2).
  { assert (X : match db_open cyclic with Ok d => (fetch_node d 0, fetch_node d 1, snd (d_tree d)) | _ => (UB, UB, 0) end =
                (Ok (Some (1, 1, NO_NETWORK)), Ok (Some (1, 1, NO_NETWORK)), 2)) by (vm_compute; reflexivity).
    rewrite E in X. apply pair_equal_spec in X as [X X3]. apply pair_equal_spec in X as [X1 X2]. auto. }
  clear E. destruct F0 as (F0 & F1 & C). exact (cycle_runs d F0 F1 C).
Qed.
Print Assumptions C22_cycle_refuted.

(** ** C29 *)
(** Partial: opening, for files of less than 8 or at least 4192 octets *)
Theorem C29_open_partial : forall f, N.of_nat (length f) < 2 ^ 63 ->
  N.of_nat (length f) < 8 \/ 4192 <= N.of_nat (length f) ->
  db_open f = Err 1 \/ exists d, db_open f = Ok d.
Proof. exact open_safe. Qed.
Print Assumptions C29_open_partial.

(** Records of nodes and networks are read inside of the file. *)
Theorem C29_records_partial : forall f d, N.of_nat (length f) < 2 ^ 63 -> db_open f = Ok d ->
  (forall i, exists r, fetch_node d i = Ok r) /\
  (forall a p i, exists n c, fetch_network d a p i = Ok (n, c)).
Proof. exact records_safe. Qed.
Print Assumptions C29_records_partial.

(** Partial: strings, and thereby ASes and countries, if some octet at the end of the
    pool or behind it is 0. *)
Theorem C29_strings_partial : forall f d, N.of_nat (length f) < 2 ^ 63 -> db_open f = Ok d ->
  forall i, nth_error f i = Some 0 -> fst (d_pool d) + snd (d_pool d) <= N.of_nat i + 1 ->
  (exists s, get_vendor d = Ok s) /\ (exists s, get_description d = Ok s) /\ (exists s, get_license d = Ok s) /\
  (forall k, fetch_as d k = Err 1 \/ exists y, fetch_as d k = Ok y) /\
  (forall k, fetch_country d k = Err 1 \/ exists y, fetch_country d k = Ok y) /\
  (forall n, get_as d n = Err 1 \/ exists y, get_as d n = Ok y) /\
  (forall s, get_country d s = Err 1 \/ exists y, get_country d s = Ok y).
Proof. exact strings_safe. Qed.
Print Assumptions C29_strings_partial.

(** The pool is inside of the file unless its length says that it is longer. *)
Theorem C29_pool_partial : forall f d, N.of_nat (length f) < 2 ^ 63 -> db_open f = Ok d ->
  snd (d_pool d) <= N.of_nat (length f) -> fst (d_pool d) + snd (d_pool d) <= N.of_nat (length f).
Proof. exact pool_inside. Qed.
Print Assumptions C29_pool_partial.

(** C29 is false. Every file that has the magic bytes and the version and is shorter
    than the header is read beyond its end; *)
Theorem C29_short_files : forall f, 8 <= N.of_nat (length f) < 4192 -> firstn 7 f = MAGIC -> nth 7 f 0 = 1 -> db_open f = UB.
Proof. exact open_too_short. Qed.
Print Assumptions C29_short_files.
Theorem C29_short_refuted : exists f, db_open f = UB.
Proof. exists (MAGIC ++ [1]). apply open_too_short; [split; [discriminate|reflexivity]|reflexivity..]. Qed.
Print Assumptions C29_short_refuted.

(** a string that is not terminated is read beyond the end, *)
Theorem C29_strings_refuted : exists f,
  match db_open f with
  | Ok d => fst (d_pool d) + snd (d_pool d) = N.of_nat (length f) /\ get_vendor d = UB
  | _ => False
  end.
Proof. exists (header 24 3 ++ repeat 0 24 ++ [65; 66; 67]). vm_compute. split; reflexivity. Qed.
Print Assumptions C29_strings_refuted.

(** and a pool that is longer than the file is accepted. *)
Theorem C29_pool_refuted : exists f,
  match db_open f with
  | Ok d => N.of_nat (length f) < fst (d_pool d) /\ get_vendor d = UB
  | _ => False
  end.
Proof. exists (header 24 5000). vm_compute. split; reflexivity. Qed.
Print Assumptions C29_pool_refuted.

(** A malformed file that opens: the children of the node do not exist. *)
Definition dangling : list N := header 12 1 ++ node_bytes 7 0xfffffffe 3 ++ repeat 1 12 ++ [0].
Example C29_case : N.of_nat (length dangling) < 2 ^ 63 /\ Forall (fun o => o < 256) dangling /\ nth_error dangling 4224 = Some 0 /\
  match db_open dangling with
  | Ok d => fst (d_pool d) + snd (d_pool d) <= N.of_nat 4224 + 1 /\
      match lookup (fun _ => None) d (repeat 0 16) 128 with Ok (None, 1%Z) => true | _ => false end = true
  | _ => False
  end.
Proof.
  split; [vm_compute; reflexivity|]. split; [|split; [vm_compute; reflexivity|vm_compute; split; [discriminate|reflexivity]]].
  assert (X : forallb (fun o => o <? 256) dangling = true) by (vm_compute; reflexivity).
  apply Forall_forall. intros o I. rewrite forallb_forall in X. apply N.ltb_lt. auto.
Qed.

(** ** C30 *)
Theorem C30_opened : forall f d, db_open f = Ok d ->
  firstn 7 f = MAGIC /\ nth 7 f 0 = 1 /\ 4200 <= N.of_nat (length f).
Proof. exact opened_format. Qed.
Print Assumptions C30_opened.

Theorem C30_rejected_partial : forall f,
  N.of_nat (length f) < 8 \/ firstn 7 f <> MAGIC \/ nth 7 f 0 <> 1 \/ 4192 <= N.of_nat (length f) < 4200 -> db_open f = Err 1.
Proof. exact open_rejected. Qed.
Print Assumptions C30_rejected_partial.

(** C30 is false for files that are too short, but have magic bytes and version. *)
Theorem C30_rejected_refuted : exists f, N.of_nat (length f) < 4200 /\ firstn 7 f = MAGIC /\ nth 7 f 0 = 1 /\ db_open f <> Err 1.
Proof.
  exists (MAGIC ++ [1]). split; [reflexivity|]. split; [reflexivity|]. split; [reflexivity|].
  rewrite C29_short_files; [discriminate|split; [discriminate|reflexivity]|reflexivity..].
Qed.
Print Assumptions C30_rejected_refuted.

(** An empty database and one of another version *)
Example C30_case : match db_open (header 24 0 ++ repeat 0 24) with Ok _ => true | _ => false end = true /\
  db_open (MAGIC ++ [2] ++ repeat 0 4192) = Err 1 /\ db_open [] = Err 1.
Proof. vm_compute. auto. Qed.
