(** C78 and C79: the objects of the Python binding *)
From Coq Require Import String.
From Coq Require Import NArith ZArith List Bool Lia.
From Verif Require Import Base ModelAddress ModelCountryCode ModelNetwork SpecNetwork LemmasAddress LemmasNetwork LemmasSpecNetwork LemmasNetworkProps ModelObjects SpecObjects SpecText
  ModelBindings SpecCommand LemmasBindings ModelPython SpecPython LemmasPython.
Import ListNotations.
Open Scope N_scope.

(** ** C78: comparisons and hashes *)
Theorem C78_networks : forall n m, valid_network n -> valid_network m -> operators network_cmp same_network network_before n m.
Proof. exact network_operators. Qed.
Print Assumptions C78_networks.
Theorem C78_as : forall a b, operators as_cmp (fun a b => as_number a = as_number b) (fun a b => as_number a < as_number b) a b.
Proof. exact as_operators. Qed.
Print Assumptions C78_as.
Theorem C78_countries : forall a b, code_ok a -> code_ok b -> operators country_cmp (fun a b => code_of a = code_of b) code_before a b.
Proof. exact country_operators. Qed.
Print Assumptions C78_countries.
Theorem C78_order : total_order valid_network same_network network_before /\
  total_order (fun _ => True) (fun a b => as_number a = as_number b) (fun a b => as_number a < as_number b) /\
  total_order code_ok (fun a b => code_of a = code_of b) code_before.
Proof. exact (conj network_order (conj as_order country_order)). Qed.
Print Assumptions C78_order.
(** objects that are equal have the same hash, and AS that are not have different ones *)
Theorem C78_hash : (forall a b same, py_compare as_cmp same EQ a b = value true -> py_as_hash a = py_as_hash b /\ exists z, py_as_hash a = value z) /\
  (forall str_hash a b same, code_ok a -> code_ok b -> py_compare country_cmp same EQ a b = value true ->
    py_country_hash str_hash a = py_country_hash str_hash b /\ exists z, py_country_hash str_hash a = value z) /\
  (forall a b same, py_compare as_cmp same EQ a b = value false -> py_as_hash a <> py_as_hash b).
Proof. exact (conj as_hash (conj country_hash as_hash_apart)). Qed.
Print Assumptions C78_hash.

Definition net (a : addr) (p : N) : network := match network_new a p with Ok n => n | _ => mkNet AF_INET [] [] 0 (0, 0) 0 0 end.
Lemma net_valid : forall a (p : N) n, is_addr a -> network_new a p = Ok n -> valid_network n.
Proof.
  intros a p n A E. apply valid_net_wf. pose proof (network_new_spec a p A) as H. destruct (p <=? low_bits (val a)).
  - destruct H as (n' & E' & W & _). congruence.
  - rewrite H in E. discriminate.
Qed.
Lemma ip4_ok : forall a b c d, a < 256 -> b < 256 -> c < 256 -> d < 256 -> is_addr (ip4 a b c d).
Proof. intros a b c d A B C D. split; [reflexivity|]. repeat constructor; lia. Qed.

(** 10.0.0.0/8 comes before 10.0.0.0/9, which comes before 10.128.0.0/9 *)
Example C78_case : let a := net (ip4 10 0 0 0) 8 in let b := net (ip4 10 0 0 0) 9 in let c := net (ip4 10 128 0 0) 9 in
  valid_network a /\ valid_network b /\ valid_network c /\ py_compare network_cmp false LT a b = value true /\ py_compare network_cmp false LT b c = value true /\
  py_compare network_cmp false GT a c = value false /\ py_compare network_cmp false EQ a b = value false /\
  py_compare network_cmp false EQ a (net (ip4 10 1 2 3) 8) = value true.
Proof.
  cbv zeta. split; [|split; [|split; [|repeat split; vm_compute; reflexivity]]].
  - apply (net_valid (ip4 10 0 0 0) 8); [apply ip4_ok; lia|vm_compute; reflexivity].
  - apply (net_valid (ip4 10 0 0 0) 9); [apply ip4_ok; lia|vm_compute; reflexivity].
  - apply (net_valid (ip4 10 128 0 0) 9); [apply ip4_ok; lia|vm_compute; reflexivity].
Qed.
Example C78_case_countries : exists a b, py_country 1 (PyStr (txt "AT")) = value a /\ py_country 2 (PyStr (txt "DE")) = value b /\ code_ok a /\ code_ok b /\
  py_compare country_cmp false LT a b = value true /\ py_compare country_cmp false EQ a b = value false /\
  py_compare country_cmp false EQ a (mkCountry 3 (65, 84) (69, 85) (Name (txt "Austria"))) = value true.
Proof. do 2 eexists. split; [reflexivity|]. split; [reflexivity|]. unfold code_ok. cbn [c_code fst snd chr nth cc_copy]. repeat split; try (vm_compute; reflexivity || discriminate). Qed.

(** Two objects for the same network are equal and not equal: "!=" asks whether they are
    two objects. The same holds for ASes and countries. *)
Theorem C78_ne_refuted : exists n m, valid_network n /\ valid_network m /\ same_network n m /\
  py_compare network_cmp false EQ n m = value true /\ py_compare network_cmp false NE n m = value true.
Proof.
  exists (net (ip4 10 0 0 0) 8), (net (ip4 10 0 0 0) 8). assert (V : valid_network (net (ip4 10 0 0 0) 8)).
  { apply (net_valid (ip4 10 0 0 0) 8); [apply ip4_ok; lia|vm_compute; reflexivity]. }
  split; [exact V|]. split; [exact V|]. split; [intros v; reflexivity|]. split; vm_compute; reflexivity.
Qed.
Print Assumptions C78_ne_refuted.
(** ... whatever they are *)
Theorem C78_not_equal : forall A (cmp : A -> A -> Z) same a b, py_compare cmp same NE a b = value (negb same).
Proof. reflexivity. Qed.
Print Assumptions C78_not_equal.
(** Networks cannot be members of a set or keys of a dictionary. *)
Theorem C78_hash_refuted : exists n, valid_network n /\ py_network_hash n = raise TypeError.
Proof.
  exists (net (ip4 10 0 0 0) 8). split; [|reflexivity]. apply (net_valid (ip4 10 0 0 0) 8); [apply ip4_ok; lia|vm_compute; reflexivity].
Qed.
Print Assumptions C78_hash_refuted.

(** ** C79: attributes *)
Theorem C79_asn : forall n,
  (forall z, (1 <= z <= 2 ^ 32 - 1)%Z -> exists n', py_set_asn n (PyInt z) = Stored n' /\ but_asn n n' /\ py_asn n' = Some (Z.to_N z)) /\
  (forall v, (forall z, v = PyInt z -> ~ (1 <= z <= 2 ^ 32 - 1)%Z) -> py_set_asn n v = Refused ValueError n).
Proof. exact (fun n => conj (asn_set n) (asn_refused n)). Qed.
Print Assumptions C79_asn.
Theorem C79_country_code : forall n s, plain_text s ->
  (s = [] \/ letters s -> exists n', py_set_country_code n (PyStr s) = Ok (Stored n') /\ but_code n n' /\ py_country_code n' = value s) /\
  (s <> [] -> ~ letters s -> py_set_country_code n (PyStr s) = Ok (Refused ValueError n)).
Proof. exact (fun n s P => conj (code_set n s P) (code_refused n s P)). Qed.
Print Assumptions C79_country_code.
Theorem C79_flags : forall n z, (- 2 ^ 31 <= z < 2 ^ 31)%Z ->
  (exists b, py_get_flag n (PyInt z) = value b /\
    (b = true <-> exists i, i < 32 /\ N.testbit (n_flags n) i = true /\ Z.testbit z (Z.of_N i) = true)) /\
  (exists n', py_set_flag n (PyInt z) = Stored n' /\ but_flags n n' /\
    forall i, N.testbit (n_flags n') i = N.testbit (n_flags n) i || ((i <? 32) && Z.testbit z (Z.of_N i))).
Proof. exact (fun n z L => conj (flag_get n z L) (flag_set n z L)). Qed.
Print Assumptions C79_flags.
Theorem C79_flags_refused : forall n v, (forall z, v = PyInt z -> ~ (- 2 ^ 31 <= z < 2 ^ 31)%Z) ->
  exists e, py_set_flag n v = Refused e n /\ py_get_flag n v = raise e.
Proof. exact flag_refused. Qed.
Print Assumptions C79_flags_refused.
Theorem C79_subnet : forall n m, valid_network n -> valid_network m ->
  (py_is_subnet_of n m = true <-> forall v, member n v -> member m v).
Proof. exact (fun n m Vn Vm => is_subnet_members m n Vm Vn). Qed.
Print Assumptions C79_subnet.
Theorem C79_packed_partial : forall n, valid_network n ->
  (n_family n = AF_INET -> (length (py_packed (n_first n)) = 4%nat /\ be (py_packed (n_first n)) = num (n_first n) - 0xffff00000000) /\
    (length (py_packed (n_last n)) = 4%nat /\ be (py_packed (n_last n)) = num (n_last n) - 0xffff00000000)) /\
  (n_family n <> AF_INET -> (length (py_packed (n_first n)) = 16%nat /\ be (py_packed (n_first n)) = num (n_first n)) /\
    (~ is_ipv4 (num (n_last n)) -> length (py_packed (n_last n)) = 16%nat /\ be (py_packed (n_last n)) = num (n_last n))).
Proof. exact packed_net. Qed.
Print Assumptions C79_packed_partial.
Theorem C79_as_partial : (forall id z, (0 <= z < 2 ^ 31)%Z -> exists a, py_as id (PyInt z) = value a /\ py_number a = z) /\
  (forall a s, plain_text s -> exists a', py_set_as_name a (PyStr s) = Ok (Stored a') /\ py_as_name a' = value s /\ py_number a' = py_number a).
Proof. exact (conj as_made as_named). Qed.
Print Assumptions C79_as_partial.
Theorem C79_country_partial : forall s, plain_text s ->
  (forall id, letters s -> exists c, py_country id (PyStr s) = value c /\ code_ok c /\ py_code c = value s) /\
  (forall c, c_name c <> Dangling -> exists c', py_set_country_name c (PyStr s) = Ok (Stored c') /\
    py_country_name c' = value (Some s) /\ py_code c' = py_code c /\ py_continent c' = py_continent c) /\
  (forall c, length s = 2%nat -> exists c', py_set_continent c (PyStr s) = Ok (Stored c') /\
    py_continent c' = value (Some s) /\ py_code c' = py_code c /\ c_name c' = c_name c) /\
  (forall c, length s <> 2%nat -> py_set_continent c (PyStr s) = Ok (Refused ValueError c)).
Proof.
  exact (fun s P => conj (fun id L => proj1 (country_made id s P) L) (conj (fun c D => country_named c s D P)
    (conj (fun c L => continent_set c s P L) (fun c L => continent_refused c s P L)))).
Qed.
Print Assumptions C79_country_partial.

Lemma plain_ascii : forall s, Forall (fun c => 0 < c < 128) s -> plain_text s.
Proof.
  intros s F. split; [apply utf8_iff, ascii_utf8; eapply Forall_impl; [|exact F]; cbv beta; lia|]. intros I. rewrite Forall_forall in F. specialize (F 0 I). lia.
Qed.
(** names with characters outside ASCII, too *)
Example C79_case : let n := net (ip4 10 0 0 0) 8 in valid_network n /\ plain_text (txt "DE") /\ letters (txt "DE") /\ plain_text [195; 150; 66; 66] /\
  py_set_asn n (PyInt 4294967295) = Stored (set_asn n 4294967295) /\ py_set_asn n (PyInt 4294967296) = Refused ValueError n /\
  py_set_asn n PyOther = Refused ValueError n /\ py_set_country_code n (PyStr (txt "de")) = Ok (Refused ValueError n) /\
  py_packed (n_last n) = [10; 255; 255; 255] /\ py_get_flag (set_flag n 4) (PyInt 4) = value true /\ py_get_flag (set_flag n 4) (PyInt 3) = value false /\
  py_is_subnet_of (net (ip4 10 128 0 0) 9) n = true /\ py_is_subnet_of n (net (ip4 10 128 0 0) 9) = false.
Proof.
  cbv zeta. split; [apply (net_valid (ip4 10 0 0 0) 8); [apply ip4_ok; lia|vm_compute; reflexivity]|].
  split; [apply plain_ascii; vm_compute; repeat constructor|]. split; [exists 68, 69; vm_compute; repeat split; discriminate|].
  split; [split; [apply utf8_iff; reflexivity|cbn; intuition discriminate]|]. repeat split; vm_compute; reflexivity.
Qed.

(** Anything that is no text removes the country code or the name; the exception shows up
    later. *)
Theorem C79_type_refuted : exists n n', valid_network n /\ py_country_code n = value (txt "DE") /\
  py_set_country_code n (PyInt 5) = Ok (Unreported TypeError n') /\ py_country_code n' = value [].
Proof.
  exists (with_cc (net (ip4 10 0 0 0) 8) (68, 69)). eexists. split.
  { assert (E : exists n, network_new (ip4 10 0 0 0) 8 = Ok n /\ set_country_code n (Some (txt "DE")) = Ok (with_cc (net (ip4 10 0 0 0) 8) (68, 69))).
    { eexists. split; [vm_compute; reflexivity|vm_compute; reflexivity]. }
    destruct E as (n & E1 & E2). apply (set_cc_frame n (Some (txt "DE"))) in E2; [tauto|]. apply (net_valid (ip4 10 0 0 0) 8); [apply ip4_ok; lia|exact E1]. }
  split; [vm_compute; reflexivity|]. split; vm_compute; reflexivity.
Qed.
Print Assumptions C79_type_refuted.
(** To delete an attribute that is a text crashes. *)
Theorem C79_delete_refuted : exists n a c, py_set_country_code n Deleted = UB /\ py_set_as_name a Deleted = UB /\ py_set_country_name c Deleted = UB /\
  py_set_continent c Deleted = UB.
Proof. exists (net (ip4 10 0 0 0) 8), (as_new 1 5), (mkCountry 1 (68, 69) (0, 0) NoName). repeat split; reflexivity. Qed.
Print Assumptions C79_delete_refuted.
(** A text is cut at its first NUL: "DE\0rest" is accepted as a country code. *)
Theorem C79_nul_refuted : exists n s n', is_text s /\ ~ letters s /\ py_set_country_code n (PyStr s) = Ok (Stored n') /\ py_country_code n' = value (txt "DE").
Proof.
  exists (net (ip4 10 0 0 0) 8), (txt "DE" ++ 0 :: txt "rest"). eexists. split; [apply utf8_iff; reflexivity|].
  split; [intros (a & b & E & _); discriminate|]. split; vm_compute; reflexivity.
Qed.
Print Assumptions C79_nul_refuted.
(** The number of an AS is read as an int: AS(-1) is AS4294967295, but AS(4200000000) is
    refused. *)
Theorem C79_number_refuted : (exists id a, py_as id (PyInt (-1)) = value a /\ py_number a = 4294967295%Z) /\
  (exists id, py_as id (PyInt 4200000000) = raise OverflowError).
Proof. split; [exists 1%nat; eexists; split; reflexivity|exists 1%nat; reflexivity]. Qed.
Print Assumptions C79_number_refuted.
(** The name of an AS that has none is a NULL pointer for Python. *)
Theorem C79_name_refuted : exists a, py_as 1 (PyInt 64496) = value a /\ py_as_name a = UB.
Proof. eexists. split; reflexivity. Qed.
Print Assumptions C79_name_refuted.
(** A country with a code that is not valid fails without an exception. *)
Theorem C79_invalid_country : forall id s, plain_text s -> ~ letters s -> py_country id (PyStr s) = raise SystemError.
Proof. exact (fun id s P => proj2 (country_made id s P)). Qed.
Print Assumptions C79_invalid_country.
(** A continent that is no text: the message is made of a NULL pointer. *)
Theorem C79_continent_refuted : exists c, py_set_continent c (PyInt 5) = UB.
Proof. exists (mkCountry 1 (68, 69) (0, 0) NoName). reflexivity. Qed.
Print Assumptions C79_continent_refuted.
(** A name that is no text frees the name, which is read again. *)
Theorem C79_dangling_refuted : exists c c', py_country_name c = value (Some (txt "Germany")) /\ py_set_country_name c (PyInt 5) = Ok (Unreported TypeError c') /\
  py_country_name c' = UB.
Proof. exists (mkCountry 1 (68, 69) (0, 0) (Name (txt "Germany"))). eexists. repeat split; vm_compute; reflexivity. Qed.
Print Assumptions C79_dangling_refuted.
(** The last address of ::/80 has 4 octets, the first one 16. *)
Theorem C79_packed_refuted : exists n, valid_network n /\ n_family n = AF_INET6 /\ length (py_packed (n_first n)) = 16%nat /\ py_packed (n_last n) = [255; 255; 255; 255].
Proof.
  exists (net (ip6 0) 80). split; [|repeat split; vm_compute; reflexivity]. apply (net_valid (ip6 0) 80); [|vm_compute; reflexivity].
  split; [reflexivity|]. vm_compute. repeat constructor.
Qed.
Print Assumptions C79_packed_refuted.
