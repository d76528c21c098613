(** C10, C11, C39, C51: networks and addresses as text. *)
From Coq Require Import String.
From Coq Require Import NArith ZArith List Bool Arith.
From Verif Require Import Base ModelAddress ModelCountryCode ModelNetwork SpecNetwork ModelText SpecText
  LemmasSpecNetwork LemmasText LemmasTextAddr LemmasTextNet LemmasReverse LemmasTextCases.
Import ListNotations.
Open Scope N_scope.

(** C10. Whatever was formatted before ([before]), the text of a network is read
    back as the same network. *)
Theorem C10_round_trip : forall before n, Forall addr_arg before -> valid_network n ->
  exists r r' s m, address_strs ring0 before = Ok r /\ network_str r n = Ok (r', Some s) /\
    network_new_from_string (Some s) = Ok m /\
    n_first m = n_first n /\ n_last m = n_last n /\ n_prefix m = n_prefix n /\ n_family m = n_family n.
Proof.
  exact (fun before n F V =>
    match strs_ok before ring0 ring0_ok F with
    | ex_intro _ r (conj E R) =>
        match text_round_trip r n R (proj1 (valid_net_wf n) V) with
        | ex_intro _ r' (ex_intro _ s (ex_intro _ m Q)) =>
            ex_intro _ r (ex_intro _ r' (ex_intro _ s (ex_intro _ m (conj E Q))))
        end
    end).
Qed.
Print Assumptions C10_round_trip.

(** Addresses: the text is read back as the same address, with the prefix of a
    single address. *)
Theorem C10_address : forall before a, Forall addr_arg before -> is_addr a ->
  exists r r' p, address_strs ring0 before = Ok r /\ address_str r (Some a) = Ok (r', Some p) /\
    address_parse false (Some (deref r' p)) = Ok (a, 0) /\
    address_parse true (Some (deref r' p)) = Ok (a, if v4mapped a then 32 else 128).
Proof. exact address_round_trip. Qed.
Print Assumptions C10_address.

Example C10_case :
  shown (network_new (ip4 192 0 2 77) 24) = Some (txt "192.0.2.0/24") /\
  shown (network_new (ip6 0x20010db8000000000001000000000001) 128) = Some (txt "2001:db8::1:0:0:1/128") /\
  shown (network_new (ip6 0x0a000001) 128) = Some (txt "::10.0.0.1/128") /\
  shown (network_new (ip6 0) 0) = Some (txt "::/0") /\
  shown (network_new_from_string (Some (txt "2001:0DB8:0:0::7/33"))) = Some (txt "2001:db8::/33").
Proof. vm_compute. auto 6. Qed.

(** C51. A prefix of decimal digits with a value below 2^32 (or so large that
    strtol limits it) is accepted exactly if it is within the bounds of the
    family of the address, and then it is the prefix of the network. Not covered:
    everything else behind the slash, see the refutations below. *)
Theorem C51_prefix_partial : forall t d v a W, noslash t -> (length (t ++ SLASH :: d) <= 48)%nat ->
  address_parse false (Some t) = Ok (a, 0) -> (is_ipv4 (num a) /\ W = 32 \/ ~ is_ipv4 (num a) /\ W = 128) ->
  decimal d v -> v < 2 ^ 32 \/ 2 ^ 63 <= v ->
  (v <= W -> exists n, network_new_from_string (Some (t ++ SLASH :: d)) = Ok n /\
     valid_network n /\ network_prefix n = v /\ member n (num a)) /\
  (W < v -> network_new_from_string (Some (t ++ SLASH :: d)) = Err 1).
Proof. exact prefix_digits_width. Qed.
Print Assumptions C51_prefix_partial.

(** Whatever is accepted is a valid network that contains the address written
    before the slash. *)
Theorem C51_accepted : forall s n, network_new_from_string (Some s) = Ok n -> valid_network n /\
  exists t p a, split_slash (firstn 48 s) = (t, p) /\ address_parse false (Some t) = Ok (a, 0) /\ member n (num a).
Proof. exact accepted_member. Qed.
Print Assumptions C51_accepted.

(** Without a slash the network is the single address if the notation is that of
    the family of the address. *)
Theorem C51_no_prefix : forall t a, noslash t -> (length t <= 48)%nat ->
  (pton6 t = Some a -> ~ is_ipv4 (num a) -> exists n, network_new_from_string (Some t) = Ok n /\
     valid_network n /\ n_first n = a /\ n_last n = a) /\
  (pton6 t = Some a -> is_ipv4 (num a) -> network_new_from_string (Some t) = Err 1) /\
  (forall x y z w, quad t x y z w -> exists n, network_new_from_string (Some t) = Ok n /\
     valid_network n /\ n_first n = ip4 x y z w /\ n_last n = ip4 x y z w).
Proof. exact no_prefix. Qed.
Print Assumptions C51_no_prefix.

(** The dotted quads without leading zeros are exactly what inet_pton4 reads. *)
Theorem C51_dotted_quads : forall s l,
  pton4 s = Some l <-> exists a b c d, l = [a; b; c; d] /\ quad s a b c d.
Proof. exact pton4_quad. Qed.
Print Assumptions C51_dotted_quads.

Example C51_case :
  shown (network_new_from_string (Some (txt "10.1.2.3/8"))) = Some (txt "10.0.0.0/8") /\
  shown (network_new_from_string (Some (txt "10.1.2.3/0000000008"))) = Some (txt "10.0.0.0/8") /\
  shown (network_new_from_string (Some (txt "10.1.2.3/33"))) = None /\
  shown (network_new_from_string (Some (txt "fe80::1/129"))) = None /\
  shown (network_new_from_string (Some (txt "10.1.2.3"))) = Some (txt "10.1.2.3/32") /\
  shown (network_new_from_string (Some (txt "10.1.02.3"))) = None.
Proof. vm_compute. auto 7. Qed.

(** Not a number, number with a tail, empty, negative, above 2^32, white space. *)
Theorem C51_prefix_refuted :
  (forall d, In d [txt "abc"; []; txt "-4294967296"; txt "4294967296"; txt " x"] ->
     shown (network_new_from_string (Some (txt "192.0.2.1/" ++ d))) = Some (txt "0.0.0.0/0")) /\
  (forall d, In d [txt "24foo"; txt " +24"; txt "24/8"; txt "4294967320"] ->
     shown (network_new_from_string (Some (txt "192.0.2.1/" ++ d))) = Some (txt "192.0.2.0/24")) /\
  (forall v, ~ decimal (txt "abc") v /\ ~ decimal [] v /\ ~ decimal (txt "24foo") v).
Proof. exact prefix_refuted. Qed.
Print Assumptions C51_prefix_refuted.

(** The string is cut off after 48 characters: a valid prefix of 24 written with
    leading zeros becomes 0. *)
Theorem C51_truncated_refuted : exists d, decimal d 24 /\
  shown (network_new_from_string (Some (txt "192.0.2.1/" ++ d))) = Some (txt "0.0.0.0/0").
Proof. exact truncated_refuted. Qed.
Print Assumptions C51_truncated_refuted.

(** The bounds are those of the address, not those of the notation: an IPv4
    mapped address in IPv6 notation is refused without a prefix and with its own
    prefix of 128, and read as IPv4 network with a small one. *)
Theorem C51_mapped_refuted :
  network_new_from_string (Some (txt "::ffff:192.0.2.1")) = Err 1 /\
  network_new_from_string (Some (txt "::ffff:192.0.2.1/128")) = Err 1 /\
  shown (network_new_from_string (Some (txt "::ffff:192.0.2.1/24"))) = Some (txt "192.0.2.0/24").
Proof. exact mapped_refuted. Qed.
Print Assumptions C51_mapped_refuted.

(** C11. The labels of the pointer are the nibbles (octets) of the prefix in
    reverse order; '*' comes first iff there is more than one address. *)
Theorem C11_pointer6 : forall n suffix, valid_network n -> n_family n = AF_INET6 ->
  ((n_prefix n mod 4 = 0)%nat -> exists labels,
     Forall2 nibble_label labels (rev (map (fun i => nibble i (num (n_first n))) (seq 0 (n_prefix n / 4)))) /\
     reverse_pointer n suffix =
       Ok (dotted ((if num (n_first n) =? num (n_last n) then [] else [txt "*"]) ++ labels) ++
           match suffix with None => txt "ip6.arpa." | Some s => s end)) /\
  ((n_prefix n mod 4 <> 0)%nat -> reverse_pointer n suffix = Err ENOTSUP).
Proof. exact pointer6_labels. Qed.
Print Assumptions C11_pointer6.

Theorem C11_pointer4 : forall n suffix, valid_network n -> n_family n = AF_INET ->
  ((n_prefix n mod 8 = 0)%nat -> exists labels,
     Forall2 plain_decimal labels (rev (map (fun i => octet4 i (num (n_first n))) (seq 0 ((n_prefix n - 96) / 8)))) /\
     reverse_pointer n suffix =
       Ok (dotted ((if num (n_first n) =? num (n_last n) then [] else [txt "*"]) ++ labels) ++
           match suffix with None => txt "in-addr.arpa." | Some s => s end)) /\
  ((n_prefix n mod 8 <> 0)%nat -> reverse_pointer n suffix = Err ENOTSUP).
Proof. exact pointer4_labels. Qed.
Print Assumptions C11_pointer4.

Definition pointer (n : outcome network) (suffix : option (list N)) : option (list N) :=
  match n with
  | Ok n => match reverse_pointer n suffix with Ok s => Some s | _ => None end
  | _ => None
  end.

Example C11_case :
  pointer (network_new (ip4 192 0 2 77) 32) None = Some (txt "77.2.0.192.in-addr.arpa.") /\
  pointer (network_new (ip4 192 0 2 77) 16) None = Some (txt "*.0.192.in-addr.arpa.") /\
  pointer (network_new (ip4 192 0 2 77) 17) None = None /\
  pointer (network_new (ip6 0x20010db8000000000000000000000000) 32) None = Some (txt "*.8.b.d.0.1.0.0.2.ip6.arpa.") /\
  pointer (network_new (ip6 0x20010db8000000000000000000000000) 30) None = None /\
  pointer (network_new (ip6 0) 0) (Some (txt "example.")) = Some (txt "*.example.").
Proof. vm_compute. auto 7. Qed.

(** Different networks get different pointers, within a family for every suffix,
    across the families with the default suffixes. *)
Theorem C11_injective : forall n m p, valid_network n -> valid_network m ->
  reverse_pointer n None = Ok p -> reverse_pointer m None = Ok p ->
  n_first n = n_first m /\ n_last n = n_last m /\ n_prefix n = n_prefix m.
Proof.
  exact (fun n m p Vn Vm => pointer_inj_default n m p (proj1 (valid_net_wf n) Vn) (proj1 (valid_net_wf m) Vm)).
Qed.
Print Assumptions C11_injective.

Theorem C11_injective_suffix_partial : forall n m suffix p, valid_network n -> valid_network m ->
  n_family n = n_family m ->
  reverse_pointer n suffix = Ok p -> reverse_pointer m suffix = Ok p ->
  n_first n = n_first m /\ n_last n = n_last m /\ n_prefix n = n_prefix m.
Proof.
  exact (fun n m s p Vn Vm => pointer_inj n m s p (proj1 (valid_net_wf n) Vn) (proj1 (valid_net_wf m) Vm)).
Qed.
Print Assumptions C11_injective_suffix_partial.

Example C11_injective_case : exists n m p q,
  network_new (ip6 0x20010db8000000000000000000000000) 32 = Ok n /\
  network_new (ip6 0x20010db8000000000000000000000000) 36 = Ok m /\
  reverse_pointer n None = Ok p /\ reverse_pointer m None = Ok q /\
  p = txt "*.8.b.d.0.1.0.0.2.ip6.arpa." /\ q = txt "*.0.8.b.d.0.1.0.0.2.ip6.arpa.".
Proof. do 4 eexists. repeat (split; [vm_compute; reflexivity|]). vm_compute. reflexivity. Qed.

(** With a suffix given by the caller an IPv4 and an IPv6 network can have the
    same pointer. *)
Theorem C11_injective_suffix_refuted : exists n m suffix p, valid_network n /\ valid_network m /\
  network_new (ip4 3 2 1 0) 24 = Ok n /\ network_new (ip6 0x32100000000000000000000000000000) 12 = Ok m /\
  reverse_pointer n (Some suffix) = Ok p /\ reverse_pointer m (Some suffix) = Ok p /\
  p = txt "*.1.2.3.rbl.example.org.".
Proof. exact suffix_refuted. Qed.
Print Assumptions C11_injective_suffix_refuted.

(** C39. Whatever was formatted before, the string returned for an address is the
    text of that address and stays what it is during the next five calls. *)
Theorem C39_survives : forall before a later, Forall addr_arg before -> is_addr a -> Forall addr_arg later ->
  (formatted later <= 5)%nat ->
  exists r r1 r2 p, address_strs ring0 before = Ok r /\ address_str r (Some a) = Ok (r1, Some p) /\
    address_strs r1 later = Ok r2 /\ deref r2 p = deref r1 p /\
    address_parse false (Some (deref r1 p)) = Ok (a, 0).
Proof. exact survives. Qed.
Print Assumptions C39_survives.

(** The bound is sharp: the sixth call replaces the string. *)
Theorem C39_sixth_call : forall before a later b, Forall addr_arg before -> is_addr a -> Forall addr_arg later ->
  is_addr b -> formatted later = 5%nat ->
  exists r r1 r2 p, address_strs ring0 before = Ok r /\ address_str r (Some a) = Ok (r1, Some p) /\
    address_strs r1 (later ++ [Some b]) = Ok r2 /\ address_parse false (Some (deref r2 p)) = Ok (b, 0).
Proof. exact sixth. Qed.
Print Assumptions C39_sixth_call.

Example C39_case : let l := map (fun i => Some (ip4 10 0 0 i)) [1; 2; 3; 4; 5] in
  Forall addr_arg l /\ formatted l = 5%nat /\
  exists r r1 r2, address_strs ring0 (l ++ l) = Ok r /\ address_str r (Some (ip6 1)) = Ok (r1, Some 4%nat) /\
    address_strs r1 l = Ok r2 /\ deref r2 4 = txt "::1" /\
    exists r3, address_str r2 (Some (ip4 10 0 0 6)) = Ok (r3, Some 4%nat) /\ deref r3 4 = txt "10.0.0.6".
Proof.
  cbv zeta. split; [repeat constructor|]. split; [reflexivity|].
  do 3 eexists. split; [vm_compute; reflexivity|]. split; [vm_compute; reflexivity|].
  split; [vm_compute; reflexivity|]. split; [vm_compute; reflexivity|].
  eexists. split; vm_compute; reflexivity.
Qed.
