(** C81: the Lua binding *)
From Coq Require Import String.
From Coq Require Import NArith ZArith List Bool Lia.
From Verif Require Import Base LemmasBase ModelAddress ModelCountryCode ModelNetwork SpecNetwork LemmasNetwork LemmasAddress LemmasSpecNetwork LemmasNetworkProps SpecTree ModelStringPool ModelObjects ModelText
  SpecText LemmasReverse ModelFile ModelWriter ModelDatabase SpecWriter LemmasDbProps ModelEnum SpecEnum LemmasEnumDb PropsDatabase PropsLookup PropsEnum ModelBindings SpecCommand ModelPython SpecPython ModelLua LemmasLua.
Import ListNotations.
Open Scope N_scope.

(** ** Networks *)
(** Whatever is given, there is a valid network or an error; what tostring gives makes the
    same network. *)
Theorem C81_network : (forall v, (exists n, lua_network_new v = Ok (Is n) /\ valid_network n) \/ lua_network_new v = Ok Exception) /\
  (forall n, valid_network n -> (exists m, lua_network_new (LuaStr (lua_network_str n)) = Ok (Is m) /\
     n_first m = n_first n /\ n_last m = n_last n /\ n_prefix m = n_prefix n /\ lua_family m = lua_family n) /\
     (lua_family n = 2 <-> is_ipv4 (num (n_first n))) /\ (lua_family n = 2 \/ lua_family n = 10)).
Proof. exact (conj lua_new_any (fun n V => conj (lua_round_trip n V) (lua_family_is n V))). Qed.
Print Assumptions C81_network.
Theorem C81_flags : forall number_of n z s, (- 2 ^ 31 <= z < 2 ^ 31)%Z -> exists b, lua_has_flag number_of n (LuaNum (Some z) s) = Ok (Is b) /\
  (b = true <-> exists i, i < 32 /\ N.testbit (n_flags n) i = true /\ Z.testbit z (Z.of_N i) = true).
Proof. exact lua_flags. Qed.
Print Assumptions C81_flags.
(** Missing: the two networks of C06 *)
Theorem C81_subnets_partial : forall n, valid_network n ->
  (num (n_first n) <> num (n_last n) -> ~ (num (n_first n) = 0 /\ n_prefix n = 79%nat) -> ~ (num (n_first n) = 0xfffe00000000 /\ n_prefix n = 95%nat) ->
   exists s1 s2, lua_subnets n = Ok (Is [s1; s2]) /\ splits n s1 s2) /\
  (num (n_first n) = num (n_last n) \/ num (n_first n) = 0 /\ n_prefix n = 79%nat \/ num (n_first n) = 0xfffe00000000 /\ n_prefix n = 95%nat -> lua_subnets n = Ok Exception).
Proof. exact lua_subnets_ok. Qed.
Print Assumptions C81_subnets_partial.
Theorem C81_reverse_pointer : forall n v suffix, valid_network n -> (v = LuaNil /\ suffix = None \/ exists s, ~ In 0 s /\ v = LuaStr s /\ suffix = Some s) ->
  (n_family n = AF_INET6 ->
   ((n_prefix n mod 4 = 0)%nat -> exists labels, Forall2 nibble_label labels (rev (map (fun i => nibble i (num (n_first n))) (seq 0 (n_prefix n / 4)))) /\
      lua_reverse_pointer n v = Ok (Is (dotted ((if num (n_first n) =? num (n_last n) then [] else [txt "*"]) ++ labels) ++
        match suffix with None => txt "ip6.arpa." | Some s => s end))) /\
   ((n_prefix n mod 4 <> 0)%nat -> lua_reverse_pointer n v = Ok Nothing)) /\
  (n_family n = AF_INET ->
   ((n_prefix n mod 8 = 0)%nat -> exists labels, Forall2 plain_decimal labels (rev (map (fun i => octet4 i (num (n_first n))) (seq 0 ((n_prefix n - 96) / 8)))) /\
      lua_reverse_pointer n v = Ok (Is (dotted ((if num (n_first n) =? num (n_last n) then [] else [txt "*"]) ++ labels) ++
        match suffix with None => txt "in-addr.arpa." | Some s => s end))) /\
   ((n_prefix n mod 8 <> 0)%nat -> lua_reverse_pointer n v = Ok Nothing)).
Proof. exact lua_pointers. Qed.
Print Assumptions C81_reverse_pointer.

Definition found (m : outcome (answer network)) : network := match m with Ok (Is n) => n | _ => mkNet AF_INET [] [] 0 (0, 0) 0 0 end.
Definition made (m : outcome (answer network)) : bool := match m with Ok (Is _) => true | _ => false end.
Example C81_case : let n := found (lua_network_new (LuaStr (txt "192.0.2.77/24"))) in let m := found (lua_network_new (LuaStr (txt "2001:db8::/33"))) in
  made (lua_network_new (LuaStr (txt "192.0.2.77/24"))) = true /\ valid_network n /\ made (lua_network_new (LuaStr (txt "2001:db8::/33"))) = true /\ valid_network m /\
  lua_network_str n = txt "192.0.2.0/24" /\ lua_family n = 2 /\ lua_family m = 10 /\ num (n_first n) <> num (n_last n) /\ (n_prefix n mod 8 = 0)%nat /\
  lua_reverse_pointer n LuaNil = Ok (Is (txt "*.2.0.192.in-addr.arpa.")) /\ lua_reverse_pointer m LuaNil = Ok Nothing /\
  lua_reverse_pointer n (LuaStr (txt "zen.example.")) = Ok (Is (txt "*.2.0.192.zen.example.")) /\
  match lua_subnets n with Ok (Is [a; b]) => lua_network_str a = txt "192.0.2.0/25" /\ lua_network_str b = txt "192.0.2.128/25" | _ => False end /\
  lua_network_new (LuaStr (txt "192.0.2.0/33")) = Ok Exception.
Proof.
  cbv zeta. split; [vm_compute; reflexivity|]. split.
  { destruct (lua_new_any (LuaStr (txt "192.0.2.77/24"))) as [(n & E & V)|E]; [rewrite E; exact V|]. exfalso. vm_compute in E. discriminate. }
  split; [vm_compute; reflexivity|]. split.
  { destruct (lua_new_any (LuaStr (txt "2001:db8::/33"))) as [(n & E & V)|E]; [rewrite E; exact V|]. exfalso. vm_compute in E. discriminate. }
  split; [vm_compute; reflexivity|]. split; [vm_compute; reflexivity|]. split; [vm_compute; reflexivity|]. split; [vm_compute; discriminate|]. split; [vm_compute; reflexivity|].
  split; [vm_compute; reflexivity|]. split; [vm_compute; reflexivity|]. split; [vm_compute; reflexivity|]. split; [vm_compute; split; reflexivity|]. vm_compute. reflexivity.
Qed.

(** ** ASes and countries *)
(** Missing: numbers that do not fit, and fractions *)
Theorem C81_as_partial : (forall number_of id z s, (0 <= z < 2 ^ 32)%Z -> exists a, lua_as_new number_of id (LuaNum (Some z) s) = Ok (Is a) /\
    Z.of_N (lua_as_number a) = z /\ lua_as_name a = Nothing) /\
  (forall a, as_number a < 2 ^ 31 -> exists digits, plain_decimal digits (as_number a) /\
     lua_as_str a = txt "AS" ++ digits ++ match as_name a with Some name => txt " - " ++ name | None => [] end).
Proof. exact (conj lua_as lua_as_text). Qed.
Print Assumptions C81_as_partial.
Theorem C81_country : (forall id s, ~ In 0 s ->
    (letters s -> exists c, lua_country_new id (LuaStr s) = Ok (Is c) /\ code_ok c /\ lua_code c = s /\ lua_country_name c = Ok Nothing /\ lua_continent c = Nothing) /\
    (~ letters s -> lua_country_new id (LuaStr s) = Ok Exception)) /\
  (forall a b, code_ok a -> code_ok b -> lua_country_eq a b = true <-> lua_code a = lua_code b).
Proof. exact (conj lua_country lua_eq). Qed.
Print Assumptions C81_country.
Example C81_country_case : letters (txt "DE") /\ ~ letters (txt "XX") /\ ~ In 0 (txt "DE").
Proof. split; [do 2 eexists; split; [reflexivity|]; repeat split; vm_compute; discriminate|]. split; [intros (a & b & E & A & B & X); injection E as <- <-; lia|cbn; intuition discriminate]. Qed.

(** ** Databases *)
Theorem C81_texts : forall ctz0 held key1 key2 os w x w' f,
  Forall call_ok os -> program ctz0 held key1 key2 os = Ok w -> write_to ctz0 held key1 key2 w x = Ok (0%Z, w', f) ->
  N.of_nat (length f) < 2 ^ 32 -> s_now x < 2 ^ 63 ->
  forall rounded file path, ~ In 0 path -> file path = Some f -> exists d, lua_open (LuaStr path) file = Ok (Is d) /\ db_open f = Ok d /\
    lua_db_text get_vendor d = Ok (Is (vendor (meaning os))) /\ lua_db_text get_description d = Ok (Is (description (meaning os))) /\
    lua_db_text get_license d = Ok (Is (license (meaning os))) /\ ((forall z, (0 <= z <= 2 ^ 53)%Z -> rounded z = z) -> s_now x <= 2 ^ 53 -> lua_created_at rounded d = Z.of_N (s_now x)).
Proof. exact lua_texts. Qed.
Print Assumptions C81_texts.
(** A loop over list_networks ends for every file, and for a database as in C31 it gives
    networks in ascending order that mean what was added. *)
Theorem C81_list_ends : forall beyond fuel d k, (3 * N.to_nat (snd (d_tree d)) + 1 <= fuel)%nat -> (N.to_nat (snd (d_tree d)) < k)%nat ->
  lua_list_networks beyond fuel d k <> Fuel.
Proof. exact list_ends. Qed.
Print Assumptions C81_list_ends.
Theorem C81_list_partial : forall ctz0 held key1 key2 os w x w' f d,
  Forall call_ok os -> program ctz0 held key1 key2 os = Ok w -> write_to ctz0 held key1 key2 w x = Ok (0%Z, w', f) ->
  N.of_nat (length f) < 2 ^ 32 -> s_now x < 2 ^ 64 -> db_open f = Ok d -> Forall no_save os ->
  forall beyond fuel k, (3 * N.to_nat (snd (d_tree d)) + 1 <= fuel)%nat -> (N.to_nat (snd (d_tree d)) < k)%nat -> enumerable (given os) ->
  exists L, lua_list_networks beyond fuel d k = Ok (L, true) /\ SpecNetworkList.ascending L /\
    forall v c a fl, v < 2 ^ 128 ->
      (exists z, most_specific L v z /\ get_country_code z = c /\ n_asn z = a /\ n_flags z = fl) <->
      (exists z, most_specific (given os) v z /\ get_country_code z = c /\ n_asn z = a /\ n_flags z mod 2 ^ 16 = fl).
Proof. exact list_written. Qed.
Print Assumptions C81_list_partial.
Definition looped (d : db) : outcome (list network * bool) :=
  lua_list_networks (fun _ => None) (3 * N.to_nat (snd (d_tree d)) + 1) d (S (N.to_nat (snd (d_tree d)))).
Example C81_list_case : Forall call_ok calls1 /\ Forall no_save calls1 /\ enumerable (given calls1) /\
  exists w w' f d, program 8 (fun _ => true) None None calls1 = Ok w /\
    write_to 8 (fun _ => true) None None w save0 = Ok (0%Z, w', f) /\
    N.of_nat (length f) < 2 ^ 32 /\ s_now save0 < 2 ^ 64 /\ db_open f = Ok d /\
    match looped d with Ok (l, true) => same_nets (l, Some 0%Z)
       [(num (ip4 10 0 0 0), 104%nat, 64496); (num (ip4 10 1 0 0), 112%nat, 64497); (num (ip4 192 168 0 1), 128%nat, 64497);
        (num [32;1;13;184;0;0;0;0;0;0;0;0;0;0;0;0], 32%nat, 64497)] | _ => false end = true.
Proof. split; [calls|]. split; [repeat constructor|]. split; [apply enumerable_check; vm_compute; reflexivity|]. apply a_case. vm_compute. reflexivity. Qed.

(** ** What is false *)
(** Other databases: the loop ends with an error after one of two networks. *)
Theorem C81_list_refuted : exists os x, Forall call_ok os /\ Forall no_save os /\ length (given os) = 2%nat /\
  exists w w' f d, program 8 (fun _ => true) None None os = Ok w /\ write_to 8 (fun _ => true) None None w x = Ok (0%Z, w', f) /\
    N.of_nat (length f) < 2 ^ 32 /\ s_now x < 2 ^ 64 /\ db_open f = Ok d /\
    match looped d with Ok ([_], false) => true | _ => false end = true.
Proof. exists mapped_like, save0. split; [calls|]. split; [repeat constructor|]. split; [vm_compute; reflexivity|]. apply a_case. vm_compute. reflexivity. Qed.
Print Assumptions C81_list_refuted.
(** AS numbers from 2^31 on are shown as negative numbers. *)
Theorem C81_as_text_refuted : forall a, 2 ^ 31 <= as_number a < 2 ^ 32 -> exists digits, plain_decimal digits (2 ^ 32 - as_number a) /\
  lua_as_str a = txt "AS-" ++ digits ++ match as_name a with Some name => txt " - " ++ name | None => [] end.
Proof. exact lua_as_negative. Qed.
Print Assumptions C81_as_text_refuted.
(** A number that is negative, too large or not finite is undefined, and a fraction is cut off. *)
Theorem C81_as_number_refuted : (forall number_of id t s, (forall z, t = Some z -> ~ (0 <= z < 2 ^ 32)%Z) -> lua_as_new number_of id (LuaNum t s) = UB) /\
  (forall number_of d t s, (forall z, t = Some z -> ~ (0 <= z < 2 ^ 32)%Z) -> lua_get_as_number number_of d (LuaNum t s) = UB) /\
  (forall number_of id, lua_as_new number_of id (LuaNum (Some 1%Z) (txt "1.5")) = lua_as_new number_of id (LuaNum (Some 1%Z) (txt "1"))).
Proof. exact (conj lua_as_undefined (conj lua_get_as_undefined (fun _ _ => eq_refl))). Qed.
Print Assumptions C81_as_number_refuted.
(** Strings are only read up to the first 0. *)
Theorem C81_nul_refuted : exists n c, lua_network_new (LuaStr (txt "10.0.0.0/8" ++ 0 :: txt "junk")) = Ok (Is n) /\ lua_network_str n = txt "10.0.0.0/8" /\
  lua_country_new 0 (LuaStr (txt "DE" ++ 0 :: txt "junk")) = Ok (Is c) /\ lua_code c = txt "DE".
Proof. do 2 eexists. split; [vm_compute; reflexivity|]. split; [vm_compute; reflexivity|]. split; vm_compute; reflexivity. Qed.
Print Assumptions C81_nul_refuted.
