(** C01-C06, C09, C12: networks as sets of addresses. *)
From Coq Require Import NArith ZArith List Bool Arith.
From Verif Require Import Base ModelAddress ModelCountryCode ModelNetwork SpecNetwork
  LemmasNetworkProps.
Import ListNotations.
Open Scope N_scope.

(** C02 first, because the other examples use it: every pair of an address and a
    prefix within the width W of its family gives a valid network. *)
Theorem C02_network_new_block : forall a prefix W, is_addr a ->
  (is_ipv4 (num a) /\ W = 32%nat \/ ~ is_ipv4 (num a) /\ W = 128%nat) ->
  (prefix <= N.of_nat W -> exists n, network_new a prefix = Ok n /\ valid_network n /\
     (forall v, v < 2 ^ 128 -> (member n v <-> agree (128 - W + N.to_nat prefix) (num a) v)) /\
     member n (num a) /\ member n (num (n_first n)) /\ member n (num (n_last n)) /\
     network_prefix n = prefix /\ attrs n = ([], 0, 0)) /\
  (N.of_nat W < prefix -> network_new a prefix = Err 1).
Proof. exact network_new_block. Qed.
Print Assumptions C02_network_new_block.

Example C02_case :
  (exists n, network_new (ip4 192 0 2 77) 28 = Ok n /\
     n_first n = ip4 192 0 2 64 /\ n_last n = ip4 192 0 2 79) /\
  network_new (ip4 192 0 2 77) 33 = Err 1 /\
  network_new (ip6 (0x20010db8 * 2 ^ 96)) 4294967295 = Err 1.
Proof. split; [give (network_new (ip4 192 0 2 77) 28); now vm_compute|]. now vm_compute. Qed.

(** Setting attributes keeps a network valid, so the theorems below apply to every
    network a user can create. *)
Theorem C02_attributes_keep_valid : forall n, valid_network n ->
  (forall s n', set_country_code n s = Ok n' -> valid_network n') /\
  (forall x, x < 2 ^ 32 -> valid_network (set_asn n x)) /\
  (forall x, x < 2 ^ 32 -> valid_network (set_flag n x)).
Proof.
  exact (fun n V => conj (fun s n' E => proj1 (set_cc_frame n s n' V E))
    (conj (fun x => set_asn_valid n x V) (fun x => set_flag_valid n x V))).
Qed.
Print Assumptions C02_attributes_keep_valid.

Theorem C01_network_order : forall n m, valid_network n -> valid_network m ->
  ((network_cmp n m < 0)%Z <->
     num (n_first n) < num (n_first m) \/
     num (n_first n) = num (n_first m) /\ (n_prefix n < n_prefix m)%nat) /\
  ((network_cmp n m = 0)%Z <->
     n_prefix n = n_prefix m /\ forall v, member n v <-> member m v) /\
  (network_cmp m n = - network_cmp n m)%Z.
Proof. exact network_cmp_key. Qed.
Print Assumptions C01_network_order.

Theorem C01_network_order_transitive : forall n m k,
  valid_network n -> valid_network m -> valid_network k ->
  (network_cmp n m <= 0)%Z -> (network_cmp m k <= 0)%Z ->
  (network_cmp n k <= 0)%Z /\
  ((network_cmp n k = 0)%Z -> (network_cmp n m = 0)%Z /\ (network_cmp m k = 0)%Z).
Proof. exact network_cmp_trans. Qed.
Print Assumptions C01_network_order_transitive.

Example C01_case : exists n m k,
  network_new (ip4 10 0 0 0) 8 = Ok n /\ network_new (ip4 10 0 0 0) 9 = Ok m /\
  network_new (ip6 (0x20010db8 * 2 ^ 96)) 32 = Ok k /\
  network_cmp n m = (-1)%Z /\ network_cmp m k = (-1)%Z /\ network_cmp k n = 1%Z.
Proof. give (network_new (ip4 10 0 0 0) 8). give (network_new (ip4 10 0 0 0) 9). give (network_new (ip6 (0x20010db8 * 2 ^ 96)) 32). now vm_compute. Qed.

Theorem C03_matches_address : forall n a, valid_network n -> is_addr a ->
  (network_matches_address n a = true <-> member n (num a)) /\
  (network_matches_address n a = true <-> agree (n_prefix n) (num (n_first n)) (num a)).
Proof. exact matches_members. Qed.
Print Assumptions C03_matches_address.

Example C03_case : exists n, network_new (ip4 192 0 2 77) 28 = Ok n /\
  network_matches_address n (ip4 192 0 2 79) = true /\
  network_matches_address n (ip4 192 0 2 80) = false.
Proof. give (network_new (ip4 192 0 2 77) 28). now vm_compute. Qed.

Theorem C04_is_subnet : forall n m, valid_network n -> valid_network m ->
  is_subnet n m = true <-> (forall v, member m v -> member n v).
Proof. exact is_subnet_members. Qed.
Print Assumptions C04_is_subnet.

Example C04_case : exists n m, network_new (ip4 10 0 0 0) 8 = Ok n /\
  network_new (ip4 10 128 0 0) 9 = Ok m /\ is_subnet n m = true /\ is_subnet m n = false.
Proof. give (network_new (ip4 10 0 0 0) 8). give (network_new (ip4 10 128 0 0) 9). now vm_compute. Qed.

Theorem C05_overlaps : forall n m, valid_network n -> valid_network m ->
  (overlaps n m = true <-> exists v, member n v /\ member m v) /\
  overlaps n m = overlaps m n /\
  (overlaps n m = true <->
    (forall v, member m v -> member n v) \/ (forall v, member n v -> member m v)).
Proof. exact overlaps_members. Qed.
Print Assumptions C05_overlaps.

Example C05_case : exists n m k, network_new (ip4 10 0 0 0) 8 = Ok n /\
  network_new (ip4 10 128 0 0) 9 = Ok m /\ network_new (ip4 10 0 0 0) 9 = Ok k /\
  overlaps n m = true /\ overlaps m k = false.
Proof. give (network_new (ip4 10 0 0 0) 8). give (network_new (ip4 10 128 0 0) 9). give (network_new (ip4 10 0 0 0) 9). now vm_compute. Qed.

(** Full statement: for every network that is not a single address. It fails for
    exactly the two networks ::/79 and ::fffe:0:0/95, see C06_subnets_refuted. *)
Theorem C06_subnets_partial : forall n, valid_network n -> num (n_first n) <> num (n_last n) ->
  ~ (num (n_first n) = 0 /\ n_prefix n = 79%nat) ->
  ~ (num (n_first n) = 0xfffe00000000 /\ n_prefix n = 95%nat) ->
  exists s1 s2, subnets n = Ok (s1, s2) /\ splits n s1 s2.
Proof. exact subnets_members. Qed.
Print Assumptions C06_subnets_partial.

Example C06_case : exists n s1 s2, network_new (ip4 10 0 0 0) 8 = Ok n /\
  num (n_first n) <> num (n_last n) /\ subnets n = Ok (s1, s2) /\
  n_first s1 = ip4 10 0 0 0 /\ n_first s2 = ip4 10 128 0 0.
Proof. give (network_new (ip4 10 0 0 0) 8). give (do n <- network_new (ip4 10 0 0 0) 8; subnets n). split; [now vm_compute|]. split; [vm_compute; discriminate|]. now vm_compute. Qed.

Theorem C06_single_address_fails : forall n, valid_network n -> num (n_first n) = num (n_last n) ->
  subnets n = Err 1.
Proof. exact subnets_single. Qed.
Print Assumptions C06_single_address_fails.

Theorem C06_subnets_exceptions : forall n, valid_network n ->
  (num (n_first n) = 0 /\ n_prefix n = 79%nat) \/
  (num (n_first n) = 0xfffe00000000 /\ n_prefix n = 95%nat) ->
  subnets n = Err 1.
Proof. exact subnets_fails. Qed.
Print Assumptions C06_subnets_exceptions.

Theorem C06_subnets_refuted : exists n, network_new (ip6 0) 79 = Ok n /\
  num (n_first n) <> num (n_last n) /\ subnets n = Err 1.
Proof. give (network_new (ip6 0) 79). split; [now vm_compute|]. split; [vm_compute; discriminate|]. now vm_compute. Qed.
Print Assumptions C06_subnets_refuted.

(** Soundness of merging holds for every value of __builtin_ctz(0). *)
Theorem C09_merge_exact : forall ctz0 n1 n2, valid_network n1 -> valid_network n2 ->
  network_merge ctz0 n1 n2 = Ok None \/
  exists m, network_merge ctz0 n1 n2 = Ok (Some m) /\
    two_halves n1 n2 /\ same_attributes n1 n2 /\ union_of m n1 n2.
Proof. exact merge_exact. Qed.
Print Assumptions C09_merge_exact.

(** Full statement of the converse: for all halves. It fails for ::/80 and
    ::1:0:0:0/80 (C09_merge_all_refuted) because ::ffff:ffff:ffff is taken for the
    last IPv4 address. It needs __builtin_ctz(0) >= 8. *)
Theorem C09_merge_all_partial : forall ctz0 n1 n2, (8 <= ctz0)%nat ->
  valid_network n1 -> valid_network n2 ->
  two_halves n1 n2 -> same_attributes n1 n2 ->
  ~ (num (n_first n1) = 0 /\ n_prefix n1 = 80%nat) ->
  exists m, network_merge ctz0 n1 n2 = Ok (Some m) /\ union_of m n1 n2.
Proof. exact merge_all. Qed.
Print Assumptions C09_merge_all_partial.

Example C09_case : exists n1 n2 m,
  network_new (ip4 10 0 0 0) 9 = Ok n1 /\ network_new (ip4 10 128 0 0) 9 = Ok n2 /\
  network_merge 32 n1 n2 = Ok (Some m) /\ network_prefix m = 8 /\ network_merge 32 n2 n1 = Ok None.
Proof. give (network_new (ip4 10 0 0 0) 9). give (network_new (ip4 10 128 0 0) 9). give (do n <- network_new (ip4 10 0 0 0) 9; do m <- network_new (ip4 10 128 0 0) 9; network_merge 32 n m). now vm_compute. Qed.

Theorem C09_merge_all_refuted : exists n1 n2,
  network_new (ip6 0) 80 = Ok n1 /\ network_new (ip6 (2 ^ 48)) 80 = Ok n2 /\
  num (n_first n2) = num (n_last n1) + 1 /\ network_merge 32 n1 n2 = Ok None.
Proof. give (network_new (ip6 0) 80). give (network_new (ip6 (2 ^ 48)) 80). now vm_compute. Qed.
Print Assumptions C09_merge_all_refuted.

Theorem C12_set_country_code : forall n s, valid_network n ->
  match s with
  | None | Some [] => exists n', set_country_code n s = Ok n' /\ get_country_code n' = []
  | Some [a; b] =>
      if (65 <=? a) && (a <=? 90) && (65 <=? b) && (b <=? 90) && negb (a =? 88)
      then exists n', set_country_code n s = Ok n' /\ get_country_code n' = [a; b]
      else set_country_code n s = Err (-EINVAL)
  | _ => set_country_code n s = Err (-EINVAL)
  end.
Proof. exact set_cc_spec. Qed.
Print Assumptions C12_set_country_code.

Theorem C12_set_country_code_frame : forall n s n', valid_network n -> set_country_code n s = Ok n' ->
  valid_network n' /\ n_first n' = n_first n /\ n_last n' = n_last n /\ n_prefix n' = n_prefix n /\
  n_family n' = n_family n /\ n_asn n' = n_asn n /\ n_flags n' = n_flags n.
Proof. exact set_cc_frame. Qed.
Print Assumptions C12_set_country_code_frame.

Theorem C12_match_ordinary : forall n a b, valid_network n ->
  65 <= a <= 90 -> 65 <= b <= 90 -> a <> 88 ->
  (matches_country_code n (Some [a; b]) = Ok 1 /\ get_country_code n = [a; b]) \/
  (matches_country_code n (Some [a; b]) = Ok 0 /\ get_country_code n <> [a; b]).
Proof. exact matches_cc_valid. Qed.
Print Assumptions C12_match_ordinary.

(** A1, A2, A3 and XD are the flag bits 0 to 3. *)
Theorem C12_match_special : forall n, valid_network n ->
  forall code k, In (code, k) [([65; 49], 0); ([65; 50], 1); ([65; 51], 2); ([88; 68], 3)] ->
  exists r, matches_country_code n (Some code) = Ok r /\ (r <> 0 <-> N.testbit (n_flags n) k = true).
Proof. exact matches_cc_special. Qed.
Print Assumptions C12_match_special.

Example C12_case : exists n n', network_new (ip4 10 0 0 0) 8 = Ok n /\
  set_country_code (set_flag n 4) (Some [68; 69]) = Ok n' /\ get_country_code n' = [68; 69] /\
  matches_country_code n' (Some [68; 69]) = Ok 1 /\ matches_country_code n' (Some [65; 51]) = Ok 4 /\
  matches_country_code n' (Some [65; 49]) = Ok 0 /\ set_country_code n' (Some [88; 68]) = Err (-22).
Proof. give (network_new (ip4 10 0 0 0) 8). give (do n <- network_new (ip4 10 0 0 0) 8; set_country_code (set_flag n 4) (Some [68; 69])). now vm_compute. Qed.

(** Strings that are no country code are not all refused: longer strings that
    start like a special code match its flag, and the empty string matches any
    network with a flag. *)
Theorem C12_match_invalid_refuted : exists n,
  matches_country_code n (Some [65; 49; 50]) = Ok 1 /\ matches_country_code n (Some []) = Ok 1.
Proof.
  exists (mkNet AF_INET (ip4 10 0 0 0) (ip4 10 255 255 255) 104 (0, 0) 0 1). now vm_compute.
Qed.
Print Assumptions C12_match_invalid_refuted.
