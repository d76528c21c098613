(** Enumerating (C24, C26, C31, C32, C33).

    [next_network beyond d fuel old e]: [beyond i] says what writing bit [i] of an
    address gives for [i] >= 128 (None: undefined behaviour), [fuel] is the number of
    steps that may be taken, [old] what the caller's variable was before the call. *)
From Coq Require Import NArith ZArith List Bool Arith Lia Sorting.Sorted.
From Verif Require Import Base LemmasBase ModelAddress ModelCountryCode ModelNetwork ModelTree ModelStringPool ModelObjects
  ModelFile ModelWriter ModelDatabase ModelEnum SpecNetwork SpecNetworkList SpecStringPool SpecObjects SpecTree SpecWriter SpecEnum
  LemmasTreeProps LemmasDbProps LemmasLookupDb LemmasSafe LemmasEnumAs LemmasEnumDb LemmasEnumSafe PropsDatabase PropsLookup.
Import ListNotations.
Open Scope N_scope.

(** ** C24 *)
(** An AS that was added without a name is read back with an empty one. *)
Theorem C24_enumerate : forall ctz0 held key1 key2 os w x w' f d,
  Forall call_ok os ->
  program ctz0 held key1 key2 os = Ok w ->
  write_to ctz0 held key1 key2 w x = Ok (0%Z, w', f) ->
  N.of_nat (length f) < 2 ^ 32 -> s_now x < 2 ^ 64 -> db_open f = Ok d ->
  forall flatten l, exists L, enumerates (next_as d) (configured Ases flatten l) L /\
  StronglySorted (fun a b => as_number a < as_number b) L /\
  forall r, In r L <-> exists a, In a (ases (meaning os)) /\
    r = mkAs 0 (the_number a) (Some (match the_name a with Some s => s | None => [] end)) /\
    match the_string l with Some s => occurs s (match the_name a with Some s => s | None => [] end) | None => True end.
Proof. exact enumerate_ases. Qed.
Print Assumptions C24_enumerate.

(** Calling again and again, at most [k] times; the second part says how it ended:
    0 with NULL, an error code, or None after undefined behaviour. *)
Fixpoint run {A} (next : enum -> outcome (enum * option A * Z)) (e : enum) (k : nat) : list A * option Z :=
  match k with
  | O => ([], None)
  | S k' =>
      match next e with
      | Ok (e1, Some x, 0%Z) => let (l, r) := run next e1 k' in (x :: l, r)
      | Ok (_, None, r) => ([], Some r)
      | Ok (_, _, r) => ([], Some r)
      | _ => ([], None)
      end
  end.
Lemma run_enumerates {A} next k : forall e (l : list A), run next e k = (l, Some 0%Z) -> enumerates next e l.
Proof.
  induction k as [|k IH]; intros e l; cbn [run]; [discriminate|].
  destruct (next e) as [[[e1 [x|]] r]| | |] eqn:E; try discriminate.
  - destruct r; try discriminate. destruct (run next e1 k) as [l' r] eqn:R. intros H. injection H as <- ->.
    destruct (IH _ _ R) as (e2 & e3 & R1 & E1). exists e2, e3. split; auto. econstructor; eauto.
  - intros H. injection H as <- ->. exists e, e1. split; [constructor|auto].
Qed.
Lemma run_fails {A} next k : forall e (l : list A) r, (r < 0 \/ 0 < r)%Z -> run next e k = (l, Some r) -> forall L, ~ enumerates next e L.
Proof.
  induction k as [|k IH]; intros e l r Hr; cbn [run]; [discriminate|].
  destruct (next e) as [[[e1 [x|]] r1]| | |] eqn:E; try discriminate.
  - assert (X : (l, Some r) = ([], Some r1) -> forall L, ~ enumerates next e L).
    { intros H L (e2 & e3 & R & E1). assert (r = r1) by congruence. subst r1. inversion R; subst; rewrite E in *.
      - discriminate.
      - match goal with H : Ok _ = Ok _ |- _ => injection H as _ _ H end. lia. }
    destruct r1.
    + destruct (run next e1 k) as [l' r1] eqn:Q. intros H. injection H as <- ->. intros L (e2 & e3 & R & E1).
      inversion R; subst; rewrite E in *; [discriminate|]. match goal with H : Ok _ = Ok _ |- _ => injection H as <- <- end.
      eapply (IH e1 l' r Hr Q). exists e2, e3. eauto.
    + intros H. apply X. congruence.
    + intros H. apply X. congruence.
  - intros H. injection H as <- ->. intros L (e2 & e3 & R & E1). inversion R; subst; rewrite E in *; [|discriminate].
    injection E1 as _ E1. lia.
Qed.

Definition numbers (r : list as_obj * option Z) : list N * option Z := (map as_number (fst r), snd r).
(** The ASes whose names contain "NET": of "Example Net", "telenet", "Other" and one without a name *)
Definition as_calls : list call :=
  [AddAs 7; NameAs 0 (Some [101;120;32;78;101;116]); AddAs 3; NameAs 1 (Some [116;101;108;101;110;101;116]); AddAs 5; NameAs 2 (Some [79;116;104;101;114]); AddAs 9].
Example C24_case : Forall call_ok as_calls /\
  exists w w' f d, program 8 (fun _ => true) None None as_calls = Ok w /\
    write_to 8 (fun _ => true) None None w save0 = Ok (0%Z, w', f) /\
    N.of_nat (length f) < 2 ^ 32 /\ s_now save0 < 2 ^ 64 /\ db_open f = Ok d /\
    (match numbers (run (next_as d) (configured Ases false []) 9) with ([3; 5; 7; 9], Some 0%Z) => true | _ => false end &&
     match numbers (run (next_as d) (configured Ases false [SetString [78; 69; 84]]) 9) with ([3; 7], Some 0%Z) => true | _ => false end)%bool = true.
Proof. split; [calls|]. apply a_case. vm_compute. reflexivity. Qed.

(** ** C26 *)
(** The countries come in the order in which they are stored. *)
Theorem C26_enumerate_partial : forall ctz0 held key1 key2 os w x w' f d,
  Forall call_ok os ->
  program ctz0 held key1 key2 os = Ok w ->
  write_to ctz0 held key1 key2 w x = Ok (0%Z, w', f) ->
  N.of_nat (length f) < 2 ^ 32 -> s_now x < 2 ^ 64 -> db_open f = Ok d ->
  forall flatten l,
  let block := if fst (s_block0 x) =? 0 then None else Some (cc_str (s_block0 x)) in
  exists L, enumerates (next_country d) (configured Countries flatten l) L /\
  length L = length (countries (meaning os)) /\
  forall i y z, nth_error L i = Some y -> nth_error (countries (meaning os)) i = Some z ->
    cc_str (c_code y) = the_code z /\
    nth_error (continents_read block (countries (meaning os))) i = Some (country_get_continent_code y) /\
    country_get_name y = Ok (Some (match the_country_name z with Some s => s | None => [] end)).
Proof. exact enumerate_countries. Qed.
Print Assumptions C26_enumerate_partial.

Example C26_enumerate_case : Forall call_ok calls0 /\
  exists w w' f d, program 8 (fun _ => true) None None calls0 = Ok w /\
    write_to 8 (fun _ => true) None None w save0 = Ok (0%Z, w', f) /\
    N.of_nat (length f) < 2 ^ 32 /\ s_now save0 < 2 ^ 64 /\ db_open f = Ok d /\
    (let r := run (next_country d) (configured Countries false []) 9 in
     match snd r with Some 0%Z => (length (fst r) =? length (countries (meaning calls0)))%nat && (0 <? length (fst r))%nat | _ => false end) = true.
Proof. split; [calls|]. apply a_case. vm_compute. reflexivity. Qed.

(** ** C31 *)
(** Partial: the networks are the ones left after the clean-up of the tree (for
    what these have to do with the ones added see C31_meaning_partial), and some
    sets of networks are excluded, see C31_enumerate_refuted and C33_stack_refuted. *)
Theorem C31_stored_partial : forall ctz0 held key1 key2 os w x w' f d,
  Forall call_ok os ->
  program ctz0 held key1 key2 os = Ok w ->
  write_to ctz0 held key1 key2 w x = Ok (0%Z, w', f) ->
  N.of_nat (length f) < 2 ^ 32 -> s_now x < 2 ^ 64 -> db_open f = Ok d ->
  forall beyond fuel old l, Forall setting_ok l -> (3 * N.to_nat (snd (d_tree d)) + 1 <= fuel)%nat ->
  (forall y, In y (stored (w_tree w')) -> ~ straddles y) ->
  (forall y, In y (stored (w_tree w')) -> n_prefix y = 128%nat -> ~ crowded (stored (w_tree w')) (num (n_first y))) ->
  exists L, enumerates (next_network beyond d fuel old) (configured Networks false l) L /\
    SpecNetworkList.ascending L /\
    forall n, In n L <-> exists y, In y (stored (w_tree w')) /\ n = as_read y /\ wanted l n.
Proof. exact enumerate_networks. Qed.
Print Assumptions C31_stored_partial.

(** Partial: for sets of networks as in [enumerable]. The networks that are
    enumerated give every address what the most specific network added gives it. *)
Theorem C31_meaning_partial : forall ctz0 held key1 key2 os w x w' f d,
  Forall call_ok os ->
  program ctz0 held key1 key2 os = Ok w ->
  write_to ctz0 held key1 key2 w x = Ok (0%Z, w', f) ->
  N.of_nat (length f) < 2 ^ 32 -> s_now x < 2 ^ 64 -> db_open f = Ok d -> Forall no_save os ->
  forall beyond fuel old, (3 * N.to_nat (snd (d_tree d)) + 1 <= fuel)%nat -> enumerable (given os) ->
  exists Ns, SpecNetworkList.ascending Ns /\
  (forall l, Forall setting_ok l -> exists L, enumerates (next_network beyond d fuel old) (configured Networks false l) L /\
     SpecNetworkList.ascending L /\ forall n, In n L <-> In n Ns /\ wanted l n) /\
  forall v c a fl, v < 2 ^ 128 ->
    (exists z, most_specific Ns v z /\ get_country_code z = c /\ n_asn z = a /\ n_flags z = fl) <->
    (exists z, most_specific (given os) v z /\ get_country_code z = c /\ n_asn z = a /\ n_flags z mod 2 ^ 16 = fl).
Proof. exact enumerate_meaning. Qed.
Print Assumptions C31_meaning_partial.

Definition nets (r : list network * option Z) : list (N * nat * N) * option Z :=
  (map (fun x => (num (n_first x), n_prefix x, n_asn x)) (fst r), snd r).
Definition same_nets (r : list network * option Z) (l : list (N * nat * N)) : bool :=
  match nets r with
  | (l', Some 0%Z) => if list_eq_dec (fun a b : N * nat * N => ltac:(decide equality; [apply N.eq_dec|decide equality; [apply Nat.eq_dec|apply N.eq_dec]])) l' l then true else false
  | _ => false
  end.
Definition de_only : list setting := [SetFamily 2; SetCountries (mkOlist [mkCountry 1 (68, 69) (0, 0) NoName] 8)].
Example C31_case : Forall call_ok calls1 /\ Forall no_save calls1 /\ Forall setting_ok de_only /\
  exists w w' f d, program 8 (fun _ => true) None None calls1 = Ok w /\
    write_to 8 (fun _ => true) None None w save0 = Ok (0%Z, w', f) /\
    N.of_nat (length f) < 2 ^ 32 /\ s_now save0 < 2 ^ 64 /\ db_open f = Ok d /\
    (same_nets (run (next_network (fun _ => None) d (3 * N.to_nat (snd (d_tree d)) + 1) None) (configured Networks false []) 9)
       [(num (ip4 10 0 0 0), 104%nat, 64496); (num (ip4 10 1 0 0), 112%nat, 64497); (num (ip4 192 168 0 1), 128%nat, 64497);
        (num [32;1;13;184;0;0;0;0;0;0;0;0;0;0;0;0], 32%nat, 64497)] &&
     same_nets (run (next_network (fun _ => None) d (3 * N.to_nat (snd (d_tree d)) + 1) None) (configured Networks false de_only) 9)
       [(num (ip4 10 0 0 0), 104%nat, 64496)] &&
     same_nets (run (next_network (fun _ => None) d (3 * N.to_nat (snd (d_tree d)) + 1) None) (configured Networks false [SetFlag 4; SetFamily 10]) 9)
       [(num [32;1;13;184;0;0;0;0;0;0;0;0;0;0;0;0], 32%nat, 64497)])%bool = true.
Proof. split; [calls|]. split; [repeat constructor|]. split; [repeat constructor; cbn; discriminate|]. apply a_case. vm_compute. reflexivity. Qed.
Example C31_ordinary_case : ordinary (given calls1) /\ enumerable (given calls1) /\ length (given calls1) = 5%nat.
Proof. split; [apply ordinary_check; vm_compute; reflexivity|]. split; [apply enumerable_check; vm_compute; reflexivity|vm_compute; reflexivity]. Qed.
(** ::/0, IPv4 networks in it, ::1/128 and 64:ff9b::/96 *)
Definition calls_wide : list call :=
  [AddNet (net_of_addr (repeat 0 16) 0 at_fr); AddNet (net_of_addr (ip4 10 0 0 0) 8 at_de); AddNet (net_of_addr (repeat 0 15 ++ [1]) 128 at_de);
   AddNet (net_of_addr [0;100;255;155;0;0;0;0;0;0;0;0;0;0;0;0] 96 at_de)].
Example C31_wide_case : Forall call_ok calls_wide /\ Forall no_save calls_wide /\ enumerable (given calls_wide) /\
  exists w w' f d, program 8 (fun _ => true) None None calls_wide = Ok w /\
    write_to 8 (fun _ => true) None None w save0 = Ok (0%Z, w', f) /\
    N.of_nat (length f) < 2 ^ 32 /\ s_now save0 < 2 ^ 64 /\ db_open f = Ok d /\
    same_nets (run (next_network (fun _ => None) d (3 * N.to_nat (snd (d_tree d)) + 1) None) (configured Networks false []) 9)
       [(0, 0%nat, 64497); (1, 128%nat, 64496); (num (ip4 10 0 0 0), 104%nat, 64496); (0x64ff9b * 2 ^ 96, 96%nat, 64496)] = true.
Proof. split; [calls|]. split; [repeat constructor|]. split; [apply enumerable_check; vm_compute; reflexivity|]. apply a_case. vm_compute. reflexivity. Qed.

(** C31 is false: with ::fffd:0:0/96 and ::fffe:0:0/95 an error is reported, because the
    bits of the first network that are still set make the second one look like an
    IPv4 network. *)
Definition mapped_like : list call :=
  [AddNet (net_of_addr [0;0;0;0;0;0;0;0;0;0;255;253;0;0;0;0] 96 at_de); AddNet (net_of_addr [0;0;0;0;0;0;0;0;0;0;255;254;0;0;0;0] 95 at_fr)].
Theorem C31_enumerate_refuted : exists os x, Forall call_ok os /\ Forall no_save os /\
  exists w w' f d, program 8 (fun _ => true) None None os = Ok w /\
    write_to 8 (fun _ => true) None None w x = Ok (0%Z, w', f) /\
    N.of_nat (length f) < 2 ^ 32 /\ s_now x < 2 ^ 64 /\ db_open f = Ok d /\
    forall L, ~ enumerates (next_network (fun _ => None) d (3 * N.to_nat (snd (d_tree d)) + 1) None) (configured Networks false []) L.
Proof.
  exists mapped_like, save0. split; [calls|]. split; [repeat constructor|].
  destruct (a_case 8 (fun _ => true) None None mapped_like save0
    (fun d => match run (next_network (fun _ => None) d (3 * N.to_nat (snd (d_tree d)) + 1) None) (configured Networks false []) 9 with
              | ([_], Some 1%Z) => true | _ => false end)) as (w & w' & f & d & H1 & H2 & H3 & H4 & H5 & H6); [vm_compute; reflexivity|].
  exists w, w', f, d. split; [exact H1|]. split; [exact H2|]. split; [exact H3|]. split; [exact H4|]. split; [exact H5|].
  destruct (run _ _ 9) as [l r] eqn:E in H6. destruct r as [r|]; [|exfalso; clear -H6; destruct l as [|? [|]]; discriminate].
  assert (r = 1%Z). { clear -H6. destruct l as [|? [|]]; destruct r as [|[]|]; discriminate || reflexivity. }
  eapply run_fails; [|exact E]. lia.
Qed.
Print Assumptions C31_enumerate_refuted.

(** ** C32 *)
(** Every file: what [next_network] returns is bounded by the number of nodes, and
    no call needs more than the given number of steps. *)
Theorem C32_terminates : forall beyond d fuel old l L e, (3 * N.to_nat (snd (d_tree d)) + 1 <= fuel)%nat ->
  returns (next_network beyond d fuel old) (configured Networks false l) L e ->
  (length L <= N.to_nat (snd (d_tree d)))%nat /\ next_network beyond d fuel old e <> Fuel.
Proof. exact any_file. Qed.
Print Assumptions C32_terminates.

(** ** C33 *)
(** Partial: for files with at most 127 nodes; the networks returned are valid ones.
    What is missing: larger files, for which it is false. *)
Theorem C33_small_partial : forall beyond f d, N.of_nat (length f) < 2 ^ 63 -> db_open f = Ok d -> snd (d_tree d) <= 127 -> 0 < snd (d_tree d) ->
  forall fuel old l L e, (3 * N.to_nat (snd (d_tree d)) + 1 <= fuel)%nat ->
  returns (next_network beyond d fuel old) (configured Networks false l) L e ->
  (octets f -> Forall valid_network L) /\
  exists e' n r, next_network beyond d fuel old e = Ok (e', n, r).
Proof. exact small_file. Qed.
Print Assumptions C33_small_partial.

(** A file whose node 1 is its own child *)
Example C33_case : N.of_nat (length cyclic) < 2 ^ 63 /\ octets cyclic /\
  exists d, db_open cyclic = Ok d /\ snd (d_tree d) <= 127 /\ 0 < snd (d_tree d) /\
    enumerates (next_network (fun _ => None) d (3 * N.to_nat (snd (d_tree d)) + 1) None) (configured Networks false []) [].
Proof.
  split; [vm_compute; reflexivity|]. split.
  { apply Forall_forall. intros x I. assert (X : forallb (fun x => x <? 256) cyclic = true) by (vm_compute; reflexivity).
    rewrite forallb_forall in X. apply N.ltb_lt. auto. }
  assert (X : match db_open cyclic with
    | Ok d => (snd (d_tree d) =? 2) && match run (next_network (fun _ => None) d (3 * N.to_nat (snd (d_tree d)) + 1) None) (configured Networks false []) 9 with
                ([], Some 0%Z) => true | _ => false end
    | _ => false end = true) by (vm_compute; reflexivity).
  destruct (db_open cyclic) as [d| | |]; try discriminate. apply andb_true_iff in X as [X1 X2]. apply N.eqb_eq in X1.
  exists d. split; [reflexivity|]. split; [lia|]. split; [lia|]. apply run_enumerates with 9%nat.
  destruct (run _ _ 9) as [[|] [[]|]]; discriminate || reflexivity.
Qed.

(** C33 is false: the 129 networks 8000::/1, 4000::/2, ..., ::1/128 and ::/128 *)
Definition step_of (k : nat) : network := net_of_addr (to_be 16 (2 ^ N.of_nat (127 - k))) (N.of_nat k + 1) ((68, 69), N.of_nat k + 1, 0).
Definition staircase : list call := map (fun k => AddNet (step_of k)) (seq 0 128) ++ [AddNet (net_of_addr (repeat 0 16) 128 ((68, 69), 200, 0))].
Definition is_ub {A} (r : outcome A) : bool := match r with UB => true | _ => false end.
Theorem C33_stack_refuted : exists os x, Forall call_ok os /\ Forall no_save os /\
  exists w w' f d, program 8 (fun _ => true) None None os = Ok w /\
    write_to 8 (fun _ => true) None None w x = Ok (0%Z, w', f) /\
    N.of_nat (length f) < 2 ^ 32 /\ s_now x < 2 ^ 64 /\ db_open f = Ok d /\
    is_ub (next_network (fun _ => None) d (3 * N.to_nat (snd (d_tree d)) + 1) None (configured Networks false [])) = true.
Proof.
  exists staircase, save0. split; [|split].
  - apply Forall_app. split; [|calls]. apply Forall_map, Forall_forall. intros k K. apply in_seq in K. cbn [call_ok]. unfold step_of.
    apply net_of_addr_valid.
    + split; [reflexivity|apply to_be_octets].
    + cbn; split; [right; lia|split; [lia|reflexivity]].
    + assert (X : forallb (fun k => match network_new (to_be 16 (2 ^ N.of_nat (127 - k))) (N.of_nat k + 1) with Ok _ => true | _ => false end) (seq 0 128) = true)
        by (vm_compute; reflexivity).
      rewrite forallb_forall in X. apply X, in_seq. exact K.
  - apply Forall_app. split; [|repeat constructor]. apply Forall_map, Forall_forall. intros k _. exact I.
  - apply a_case. vm_compute. reflexivity.
Qed.
Print Assumptions C33_stack_refuted.

(** ... and a file without nodes, of which the first one is read. *)
Theorem C33_no_nodes_refuted : exists f d, N.of_nat (length f) < 2 ^ 63 /\ octets f /\ db_open f = Ok d /\
  is_ub (next_network (fun _ => None) d 1 None (configured Networks false [])) = true.
Proof.
  exists (header 0 0 ++ repeat 0 24).
  assert (X : match db_open (header 0 0 ++ repeat 0 24) with
    | Ok d => is_ub (next_network (fun _ => None) d 1 None (configured Networks false [])) | _ => false end = true) by (vm_compute; reflexivity).
  destruct (db_open (header 0 0 ++ repeat 0 24)) as [d| | |]; try discriminate. exists d.
  split; [vm_compute; reflexivity|]. split; [|split; [reflexivity|exact X]].
  apply Forall_forall. intros x I. assert (Y : forallb (fun x => x <? 256) (header 0 0 ++ repeat 0 24) = true) by (vm_compute; reflexivity).
  rewrite forallb_forall in Y. apply N.ltb_lt. auto.
Qed.
Print Assumptions C33_no_nodes_refuted.
