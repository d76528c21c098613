(** Theorems about bogon enumeration (C35) *)
From Coq Require Import NArith ZArith List Bool Arith Lia ZifyBool ZifyNat ZifyN.
From Verif Require Import Base ModelAddress ModelCountryCode ModelNetwork ModelNetworkList ModelTree ModelStringPool ModelObjects
  ModelFile ModelWriter ModelDatabase ModelEnum SpecNetwork SpecNetworkList SpecTree SpecObjects SpecWriter SpecEnum LemmasTreeProps
  LemmasDbProps PropsTree PropsDatabase PropsLookup PropsEnum LemmasEnumBogonDb.
Import ListNotations.
Open Scope N_scope.
Local Opaque cleanup.

(** ** C35 *)
(** Partial: [reports] says that all unassigned addresses are reported, but nothing else
    only if the gaps are networks (see C35_more_refuted), and sets of networks are excluded
    on which the enumerator fails (C31_enumerate_refuted, C33_stack_refuted,
    C35_first_refuted, C35_last_refuted and C35_single_refuted) or reports an assigned
    address (C35_attached_refuted). The networks are the ones left after the clean-up of
    the tree; for the ones added see C35_meaning_partial. *)
Theorem C35_stored_partial : forall ctz0 held key1 key2 os w x w' f d,
  Forall call_ok os ->
  program ctz0 held key1 key2 os = Ok w ->
  write_to ctz0 held key1 key2 w x = Ok (0%Z, w', f) ->
  N.of_nat (length f) < 2 ^ 32 -> s_now x < 2 ^ 64 -> db_open f = Ok d ->
  forall beyond old flatten l, Forall setting_ok l ->
  (forall y, In y (stored (w_tree w')) -> ~ straddles y) ->
  (forall y, In y (stored (w_tree w')) -> n_prefix y = 128%nat -> ~ crowded (stored (w_tree w')) (num (n_first y))) ->
  let R := map as_read (stored (w_tree w')) in
  (forall y, In y R -> wanted l y -> get_country_code y <> [] -> n_family y = AF_INET6 -> 2 ^ 49 <= num (n_first y)) ->
  (forall fam, ~ assigned l R fam (first_address fam) /\ ~ assigned l R fam (last_address fam) /\ forall a, ~ gap l R fam a a) ->
  ~ attached l R ->
  exists L f0, (forall fuel, (f0 <= fuel)%nat -> enumerates (next_network beyond d fuel old) (configured Bogons flatten l) L) /\
    reports l R L.
Proof. exact bogons. Qed.
Print Assumptions C35_stored_partial.

(** Partial: for sets of networks as in [ordinary], and see above. *)
Theorem C35_meaning_partial : forall ctz0 held key1 key2 os w x w' f d,
  Forall call_ok os ->
  program ctz0 held key1 key2 os = Ok w ->
  write_to ctz0 held key1 key2 w x = Ok (0%Z, w', f) ->
  N.of_nat (length f) < 2 ^ 32 -> s_now x < 2 ^ 64 -> db_open f = Ok d -> Forall no_save os ->
  ordinary (given os) ->
  forall l, let G := map as_read (given os) in forall beyond old flatten, Forall setting_ok l ->
  (forall fam, ~ assigned l G fam (first_address fam) /\ ~ assigned l G fam (last_address fam) /\ forall a, ~ gap l G fam a a) ->
  ~ attached l G ->
  exists L f0, (forall fuel, (f0 <= fuel)%nat -> enumerates (next_network beyond d fuel old) (configured Bogons flatten l) L) /\
    reports l G L.
Proof. exact bogons_meaning. Qed.
Print Assumptions C35_meaning_partial.

(** 64.0.0.0/2 and 128.0.0.0/2, in it a network without a country code, and fc00::/8 *)
Definition bogon_calls : list call :=
  [AddNet (net_of_addr (ip4 64 0 0 0) 2 at_de); AddNet (net_of_addr (ip4 128 0 0 0) 2 at_fr); AddNet (net_of_addr (ip4 130 0 0 0) 8 ((0, 0), 64498, 0));
   AddNet (net_of_addr [252;0;0;0;0;0;0;0;0;0;0;0;0;0;0;0] 8 at_de)].
Definition bogon_given : list network := map (fun c => match c with AddNet n => n | _ => net_of_addr (ip4 0 0 0 0) 0 at_de end) bogon_calls.

Example C35_given_case : given bogon_calls = rev bogon_given /\ ordinary (given bogon_calls) /\
  let G := map as_read (given bogon_calls) in
  (forall fam, ~ assigned [] G fam (first_address fam) /\ ~ assigned [] G fam (last_address fam) /\ forall a, ~ gap [] G fam a a) /\
  ~ attached [] G /\ assigned [] G AF_INET (num (ip4 64 0 0 0)) /\ assigned [] G AF_INET6 (252 * 2 ^ 120) /\
  gap [] G AF_INET (num (ip4 0 0 0 0)) (num (ip4 63 255 255 255)).
Proof.
  assert (E : given bogon_calls = rev bogon_given) by (vm_compute; reflexivity).
  split; [exact E|]. rewrite E. split.
  { apply LemmasEnumDb.ordinary_check. vm_compute. reflexivity. }
  cbv zeta. set (G := map as_read (rev bogon_given)).
  set (D := fun n => (n_family n, num (n_first n), num (n_last n), get_country_code n)).
  assert (Dg : map D G = [(AF_INET6, 252 * 2 ^ 120, 253 * 2 ^ 120 - 1, [68; 69]); (AF_INET, 65535 * 2 ^ 32 + 130 * 2 ^ 24, 65535 * 2 ^ 32 + 131 * 2 ^ 24 - 1, []);
    (AF_INET, 65535 * 2 ^ 32 + 2 * 2 ^ 30, 65535 * 2 ^ 32 + 3 * 2 ^ 30 - 1, [70; 82]); (AF_INET, 65535 * 2 ^ 32 + 2 ^ 30, 65535 * 2 ^ 32 + 2 * 2 ^ 30 - 1, [68; 69])])
    by (vm_compute; reflexivity).
  assert (W : forall n, wanted [] n) by (intros n; split; left; auto).
  assert (A : forall g v, assigned [] G g v <-> exists a b c, In (g, a, b, c) (map D G) /\ c <> [] /\ a <= v <= b).
  { clearbody G. clear -W. intros g v. split.
    - intros (n & I & F & _ & C & M). exists (num (n_first n)), (num (n_last n)), (get_country_code n). split; [|auto].
      apply in_map_iff. exists n. split; auto. unfold D. now rewrite F.
    - intros (a & b & c & I & C & M). apply in_map_iff in I as (n & E & I). unfold D in E. injection E as <- <- <- <-. exists n. split; auto. }
  assert (H0 : forall z, In z G -> num (n_first z) = num (n_last z) -> False).
  { intros z I E0. apply (in_map D) in I. rewrite Dg in I. clear -I E0. unfold D in I.
    repeat (destruct I as [I|I]; [injection I as _ I1 I2 _; lia|]). destruct I. }
  rewrite Dg in A. clearbody G. clear -A H0.
  assert (A4 : forall v, assigned [] G AF_INET v <-> 65535 * 2 ^ 32 + 2 ^ 30 <= v < 65535 * 2 ^ 32 + 3 * 2 ^ 30).
  { intros v. rewrite A. split.
    - intros (a & b & c & I & C & M). repeat (destruct I as [I|I]; [try discriminate I; injection I as <- <- <-; (lia || now elim C)|]). destruct I.
    - intros V. destruct (N.lt_ge_cases v (65535 * 2 ^ 32 + 2 * 2 ^ 30)) as [L|L].
      + do 3 eexists. split; [right; right; right; left; reflexivity|]. split; [discriminate|lia].
      + do 3 eexists. split; [right; right; left; reflexivity|]. split; [discriminate|lia]. }
  assert (A6 : forall v, assigned [] G AF_INET6 v <-> 252 * 2 ^ 120 <= v < 253 * 2 ^ 120).
  { intros v. rewrite A. split.
    - intros (a & b & c & I & C & M). repeat (destruct I as [I|I]; [try discriminate I; injection I as <- <- <-; lia|]). destruct I.
    - intros V. do 3 eexists. split; [left; reflexivity|]. split; [discriminate|lia]. }
  split; [|split; [|split; [|split]]].
  - intros []; cbn [first_address last_address].
    + rewrite !A4. split; [lia|]. split; [lia|]. intros a (R & N & L & H). specialize (N a ltac:(lia)). rewrite A4 in *. cbn [first_address last_address] in *. lia.
    + rewrite !A6. split; [lia|]. split; [lia|]. intros a (R & N & L & H). specialize (N a ltac:(lia)). rewrite A6 in *. cbn [first_address last_address] in *. lia.
  - intros (z & I & _ & _ & X & _). eauto.
  - apply A4. change (num (ip4 64 0 0 0)) with (65535 * 2 ^ 32 + 2 ^ 30). lia.
  - apply A6. lia.
  - change (num (ip4 0 0 0 0)) with (65535 * 2 ^ 32). change (num (ip4 63 255 255 255)) with (65535 * 2 ^ 32 + 2 ^ 30 - 1).
    unfold gap. cbn [first_address last_address]. rewrite !A4. split; [lia|]. split; [|lia]. intros v V. rewrite A4. lia.
Qed.

(** What is enumerated: all but 64.0.0.0/2 and 128.0.0.0/2; for IPv6 everything, including fc00::/8. *)
Example C35_case : Forall call_ok bogon_calls /\ Forall no_save bogon_calls /\ Forall setting_ok de_only /\
  exists w w' f d, program 8 (fun _ => true) None None bogon_calls = Ok w /\
    write_to 8 (fun _ => true) None None w save0 = Ok (0%Z, w', f) /\
    N.of_nat (length f) < 2 ^ 32 /\ s_now save0 < 2 ^ 64 /\ db_open f = Ok d /\
    (same_nets (run (next_network (fun _ => None) d 2000 None) (configured Bogons false [SetFamily 2]) 20)
       [(num (ip4 0 0 0 0), 98%nat, 0); (num (ip4 192 0 0 0), 98%nat, 0)] &&
     same_nets (run (next_network (fun _ => None) d 2000 None) (configured Bogons false de_only) 20)
       [(num (ip4 0 0 0 0), 98%nat, 0); (num (ip4 128 0 0 0), 97%nat, 0)])%bool = true.
Proof.
  split.
  { do 2 (apply Forall_cons; [cbn [call_ok]; netok|]). apply Forall_cons; [cbn [call_ok]|calls].
    apply net_of_addr_valid; [split; [reflexivity|repeat constructor]| |reflexivity]. cbn. split; [left; split; reflexivity|]. split; reflexivity. }
  split; [repeat constructor|]. split; [repeat constructor; cbn; discriminate|]. apply a_case. vm_compute. reflexivity.
Qed.

(** ** C35 is false *)
(** The calls in [os], then enumerating all bogons: [report] is what is reported and how it ends. *)
Definition bogons_end (os : list call) (report : list (N * nat * N) * option Z -> bool) : Prop :=
  Forall call_ok os /\ Forall no_save os /\ ordinary (given os) /\
  exists w w' f d, program 8 (fun _ => true) None None os = Ok w /\
    write_to 8 (fun _ => true) None None w save0 = Ok (0%Z, w', f) /\
    N.of_nat (length f) < 2 ^ 32 /\ s_now save0 < 2 ^ 64 /\ db_open f = Ok d /\
    report (nets (run (next_network (fun _ => None) d 2000 None) (configured Bogons false []) 20)) = true.
Definition fails (r : list (N * nat * N) * option Z) : bool := match snd r with Some 1%Z => true | _ => false end.

Ltac v4_only := apply LemmasEnumDb.ordinary_check; vm_compute; reflexivity.

(** A network that starts at the first address: 0.0.0.0/8. *)
Theorem C35_first_refuted : exists os, bogons_end os fails.
Proof.
  exists [AddNet (net_of_addr (ip4 0 0 0 0) 8 at_de)]. split; [calls|]. split; [repeat constructor|]. split; [v4_only|].
  apply a_case. vm_compute. reflexivity.
Qed.
Print Assumptions C35_first_refuted.

(** A network that ends at the last address: 224.0.0.0/3. *)
Theorem C35_last_refuted : exists os, bogons_end os fails.
Proof.
  exists [AddNet (net_of_addr (ip4 224 0 0 0) 3 at_de)]. split; [calls|]. split; [repeat constructor|]. split; [v4_only|].
  apply a_case. vm_compute. reflexivity.
Qed.
Print Assumptions C35_last_refuted.

(** A gap of a single address: 1.2.3.0/31 and 1.2.3.3/32. *)
Theorem C35_single_refuted : exists os, bogons_end os fails.
Proof.
  exists [AddNet (net_of_addr (ip4 1 2 3 0) 31 at_de); AddNet (net_of_addr (ip4 1 2 3 3) 32 at_de)].
  split; [calls|]. split; [repeat constructor|]. split; [v4_only|]. apply a_case. vm_compute. reflexivity.
Qed.
Print Assumptions C35_single_refuted.

(** More than the unassigned addresses: with 10.0.0.0/8, 0.0.0.0/4 and 0.0.0.0/1 are reported. *)
Theorem C35_more_refuted : exists os x, In x (given os) /\ member x (num (ip4 10 0 0 0)) /\ get_country_code x <> [] /\
  bogons_end os (fun r => match r with
    | (l, Some 0%Z) => existsb (fun t => match t with (a, p, _) => (a =? num (ip4 0 0 0 0)) && (p =? 100)%nat end) l
    | _ => false end).
Proof.
  exists [AddNet (net_of_addr (ip4 10 0 0 0) 8 at_de)], (net_of_addr (ip4 10 0 0 0) 8 at_de). split; [vm_compute; now left|].
  split; [vm_compute; split; discriminate|]. split; [discriminate|].
  split; [calls|]. split; [repeat constructor|]. split; [v4_only|]. apply a_case. vm_compute. reflexivity.
Qed.
Print Assumptions C35_more_refuted.

(** A network of a single address right behind another one is taken for unassigned: with
    0.0.8.0/21, 0.0.16.0/32, 0.0.24.0/21 and 0.0.32.0/19 it is part of the gap. *)
Theorem C35_attached_refuted : exists os x, In x (given os) /\ n_first x = n_last x /\ get_country_code x <> [] /\
  bogons_end os (fun r => match r with
    | (l, Some 0%Z) => (length l =? 4)%nat && existsb (fun t => match t with (a, p, _) => (a =? num (n_first x)) && (p =? 117)%nat end) l
    | _ => false end).
Proof.
  exists [AddNet (net_of_addr (ip4 0 0 8 0) 21 at_de); AddNet (net_of_addr (ip4 0 0 16 0) 32 at_fr); AddNet (net_of_addr (ip4 0 0 24 0) 21 at_de); AddNet (net_of_addr (ip4 0 0 32 0) 19 at_de)],
    (net_of_addr (ip4 0 0 16 0) 32 at_fr). split; [vm_compute; auto|]. split; [reflexivity|]. split; [discriminate|].
  split; [calls|]. split; [repeat constructor|]. split; [v4_only|]. apply a_case. vm_compute. reflexivity.
Qed.
Print Assumptions C35_attached_refuted.
