(** The Lua binding *)
From Coq Require Import String.
From Coq Require Import NArith ZArith List Bool Lia ZifyBool ZifyNat ZifyN.
From Verif Require Import Base LemmasBase ModelAddress LemmasAddress ModelCountryCode ModelNetwork LemmasNetwork SpecNetwork LemmasSpecNetwork LemmasNetworkProps ModelTree SpecTree
  ModelStringPool ModelObjects LemmasObjects ModelText SpecText LemmasText LemmasTextAddr LemmasTextNet LemmasReverse ModelFile ModelWriter ModelDatabase SpecWriter LemmasDbProps ModelEnum SpecEnum LemmasEnum LemmasEnumDb
  ModelExport SpecExport LemmasExportText ModelBindings SpecCommand LemmasBindings ModelPython SpecPython LemmasPython LemmasPyWriter ModelLua.
Import ListNotations.
Open Scope N_scope.

Lemma no_nul : forall s, ~ In 0 s -> to_nul s = s.
Proof.
  induction s as [|c s IH]; intros H; [reflexivity|]. cbn [to_nul]. replace (c =? 0) with false; [f_equal; apply IH; intros I; apply H; now right|].
  symmetry. apply N.eqb_neq. intros ->. apply H. now left.
Qed.

(** ** Networks *)
Lemma lua_new_any : forall v, (exists n, lua_network_new v = Ok (Is n) /\ valid_network n) \/ lua_network_new v = Ok Exception.
Proof.
  intros v. unfold lua_network_new. destruct (check_string v) as [s|]; [|right; reflexivity].
  destruct (new_from_string s) as [(n & E & V & _)|E]; rewrite E; cbn [or_error]; [left; eauto|right; reflexivity].
Qed.
Lemma lua_round_trip : forall n, valid_network n -> exists m, lua_network_new (LuaStr (lua_network_str n)) = Ok (Is m) /\
  n_first m = n_first n /\ n_last m = n_last n /\ n_prefix m = n_prefix n /\ lua_family m = lua_family n.
Proof.
  intros n V. destruct (net_text_word n V) as [[_ W] (m & E & A & B & C & D)]. exists m. unfold lua_network_new, lua_network_str. cbn [check_string].
  rewrite no_nul; [|rewrite Forall_forall in W; intros I; specialize (W 0 I); lia]. rewrite E. unfold lua_family. rewrite D. auto.
Qed.
Lemma lua_family_is : forall n, valid_network n -> (lua_family n = 2 <-> is_ipv4 (num (n_first n))) /\ (lua_family n = 2 \/ lua_family n = 10).
Proof.
  intros n V. rewrite <- (vn_family n V). unfold lua_family. destruct (n_family n); split; try (now left); try (now right); split; congruence.
Qed.
Lemma lua_flags : forall number_of n z s, (- 2 ^ 31 <= z < 2 ^ 31)%Z -> exists b, lua_has_flag number_of n (LuaNum (Some z) s) = Ok (Is b) /\
  (b = true <-> exists i, i < 32 /\ N.testbit (n_flags n) i = true /\ Z.testbit z (Z.of_N i) = true).
Proof.
  intros number_of n z s L. destruct (flag_get n z L) as (b & E & I). exists b. split; [|exact I]. unfold py_get_flag in E. rewrite int_ok in E by exact L. unfold value in E.
  unfold lua_has_flag. cbn [check_number to_int]. replace ((- 2 ^ 31 <=? z) && (z <? 2 ^ 31))%Z with true by lia. cbn [bind]. congruence.
Qed.
Lemma lua_subnets_ok : forall n, valid_network n ->
  (num (n_first n) <> num (n_last n) -> ~ (num (n_first n) = 0 /\ n_prefix n = 79%nat) -> ~ (num (n_first n) = 0xfffe00000000 /\ n_prefix n = 95%nat) ->
   exists s1 s2, lua_subnets n = Ok (Is [s1; s2]) /\ splits n s1 s2) /\
  (num (n_first n) = num (n_last n) \/ num (n_first n) = 0 /\ n_prefix n = 79%nat \/ num (n_first n) = 0xfffe00000000 /\ n_prefix n = 95%nat -> lua_subnets n = Ok Exception).
Proof.
  intros n V. unfold lua_subnets. split.
  - intros A B C. destruct (subnets_members n V A B C) as (s1 & s2 & E & K). exists s1, s2. rewrite E. auto.
  - intros [A|A]; [rewrite (subnets_single n V A)|rewrite (subnets_fails n V A)]; reflexivity.
Qed.
Lemma lua_pointer : forall n v suffix, opt_string v = Some suffix ->
  (forall s, reverse_pointer n suffix = Ok s -> lua_reverse_pointer n v = Ok (Is s)) /\
  (reverse_pointer n suffix = Err ENOTSUP -> lua_reverse_pointer n v = Ok Nothing).
Proof. intros n v suffix O. unfold lua_reverse_pointer. rewrite O. split; [intros s E|intros E]; rewrite E; reflexivity. Qed.

(** ** ASes and countries *)
Lemma lua_as : forall number_of id z s, (0 <= z < 2 ^ 32)%Z -> exists a, lua_as_new number_of id (LuaNum (Some z) s) = Ok (Is a) /\
  Z.of_N (lua_as_number a) = z /\ lua_as_name a = Nothing.
Proof.
  intros number_of id z s L. unfold lua_as_new. cbn [check_number to_unsigned]. replace ((0 <=? z) && (z <? 2 ^ 32))%Z with true by lia. cbn [bind].
  eexists. split; [reflexivity|]. split; [unfold lua_as_number, as_new; cbn [as_number]; lia|reflexivity].
Qed.
Lemma lua_as_undefined : forall number_of id t s, (forall z, t = Some z -> ~ (0 <= z < 2 ^ 32)%Z) -> lua_as_new number_of id (LuaNum t s) = UB.
Proof.
  intros number_of id t s H. unfold lua_as_new. cbn [check_number to_unsigned]. destruct t as [z|]; [|reflexivity]. specialize (H z eq_refl).
  unfold to_unsigned. now replace ((0 <=? z) && (z <? 2 ^ 32))%Z with false by lia.
Qed.
Lemma lua_country : forall id s, ~ In 0 s ->
  (letters s -> exists c, lua_country_new id (LuaStr s) = Ok (Is c) /\ code_ok c /\ lua_code c = s /\ lua_country_name c = Ok Nothing /\ lua_continent c = Nothing) /\
  (~ letters s -> lua_country_new id (LuaStr s) = Ok Exception).
Proof.
  intros id s Z. unfold lua_country_new. cbn [check_string]. rewrite no_nul by exact Z. split.
  - intros (a & b & -> & A & B & X). unfold country_new. rewrite (proj2 (cc_valid_iff a b)) by auto. cbn [negb]. eexists. split; [reflexivity|].
    unfold code_ok, lua_code, cc_copy, chr, cc_str. cbn [c_code nth fst snd]. split; [split; assumption|]. replace (a =? 0) with false by lia. replace (b =? 0) with false by lia. auto.
  - intros L. unfold country_new. destruct (cc_is_valid (Some s)) eqn:V; [|reflexivity]. destruct L. destruct (cc_valid_two _ V) as (a & b & K). exists a, b. exact K.
Qed.
Lemma lua_eq : forall a b, code_ok a -> code_ok b -> lua_country_eq a b = true <-> lua_code a = lua_code b.
Proof.
  intros a b A B. destruct (country_operators a b A B true) as (e & _ & _ & E & Ie & _). unfold lua_country_eq.
  assert (C : forall c, code_ok c -> lua_code c = code_of c).
  { intros c [X Y]. unfold lua_code, cc_str, code_of. destruct (c_code c) as [x y]. cbn [fst snd] in *. replace (x =? 0) with false by lia. now replace (y =? 0) with false by lia. }
  rewrite (C a A), (C b B), <- Ie. cbn in E. unfold value in E. split; intros H; congruence.
Qed.

(** ** Lists *)
Lemma loop_ok : forall beyond fuel d L e k, enumerates (next_network beyond d fuel None) e L -> (length L < k)%nat -> lua_loop beyond fuel d k e = Ok (L, true).
Proof.
  intros beyond fuel d. induction L as [|a L IH]; intros e k (e1 & e2 & R & X) K; (destruct k as [|k]; [cbn [length] in K; lia|]); cbn [lua_loop]; unfold lua_next.
  - inversion R; subst. rewrite X. reflexivity.
  - inversion R as [|? e3 ? ? ? H R']; subst. rewrite H. cbn [Z.eqb bind]. rewrite (IH e3 k); [reflexivity|exists e1, e2; auto|cbn [length] in K; lia].
Qed.
Lemma loop_all : forall beyond fuel d k e L, lua_loop beyond fuel d k e = Ok (L, true) -> enumerates (next_network beyond d fuel None) e L.
Proof.
  intros beyond fuel d. induction k as [|k IH]; intros e L E; [discriminate|]. cbn [lua_loop] in E. unfold lua_next in E.
  destruct (next_network beyond d fuel None e) as [[[e1 x] r]| | |] eqn:N; try discriminate. cbn [bind] in E. destruct (Z.eqb_spec r 0) as [-> |]; [|discriminate].
  destruct x as [n|].
  - destruct (lua_loop beyond fuel d k e1) as [[l ok]| | |] eqn:Q; try discriminate. cbn [bind] in E. inversion E; subst. destruct (IH e1 l Q) as (e2 & e3 & R & X).
    exists e2, e3. split; [econstructor; eassumption|exact X].
  - inversion E; subst. exists e, e1. split; [constructor|exact N].
Qed.

Lemma list_written : forall ctz0 held key1 key2 os w x w' f d,
  Forall call_ok os -> program ctz0 held key1 key2 os = Ok w -> write_to ctz0 held key1 key2 w x = Ok (0%Z, w', f) ->
  N.of_nat (length f) < 2 ^ 32 -> s_now x < 2 ^ 64 -> db_open f = Ok d -> Forall no_save os ->
  forall beyond fuel k, (3 * N.to_nat (snd (d_tree d)) + 1 <= fuel)%nat -> (N.to_nat (snd (d_tree d)) < k)%nat -> enumerable (given os) ->
  exists L, lua_list_networks beyond fuel d k = Ok (L, true) /\ SpecNetworkList.ascending L /\
    forall v c a fl, v < 2 ^ 128 ->
      (exists z, most_specific L v z /\ get_country_code z = c /\ n_asn z = a /\ n_flags z = fl) <->
      (exists z, most_specific (given os) v z /\ get_country_code z = c /\ n_asn z = a /\ n_flags z mod 2 ^ 16 = fl).
Proof.
  intros ctz0 held key1 key2 os w x w' f d C P W Sz Now O N beyond fuel k F K E.
  destruct (enumerate_meaning _ _ _ _ os w x w' f d C P W Sz Now O N beyond fuel None F E) as (Ns & A & G & M).
  destruct (G [] ltac:(constructor)) as (L & En & AL & I).
  assert (S1 : forall n, In n L <-> In n Ns).
  { intros n. rewrite I. split; [tauto|]. intros H. split; [exact H|]. split; [now left|left; repeat split]. }
  exists L. split; [|split; [exact AL|]].
  - apply loop_ok; [exact En|]. destruct En as (e1 & e2 & R & X). pose proof (any_file beyond d fuel None [] L e1 F R) as [B _]. lia.
  - intros v c a fl V. rewrite <- (M v c a fl V). unfold most_specific. split; intros (z & (Z1 & Z2 & Z3) & Q); exists z; (split; [|exact Q]).
    + split; [now apply S1|]. split; [exact Z2|]. intros y Y. apply Z3. now apply S1.
    + split; [now apply S1|]. split; [exact Z2|]. intros y Y. apply Z3. now apply S1.
Qed.
Lemma list_ends : forall beyond fuel d k, (3 * N.to_nat (snd (d_tree d)) + 1 <= fuel)%nat -> (N.to_nat (snd (d_tree d)) < k)%nat ->
  lua_list_networks beyond fuel d k <> Fuel.
Proof.
  intros beyond fuel d k F K H. unfold lua_list_networks in H.
  assert (G : forall j e L, returns (next_network beyond d fuel None) (enum_new Networks false) L e -> (length L + j = k)%nat -> lua_loop beyond fuel d j e <> Fuel).
  { induction j as [|j IH]; intros e L R S1; cbn [lua_loop].
    - pose proof (any_file beyond d fuel None [] L e F R) as [B _]. lia.
    - unfold lua_next. pose proof (any_file beyond d fuel None [] L e F R) as [_ B]. destruct (next_network beyond d fuel None e) as [[[e1 y] r]| | |] eqn:X; try discriminate; [|contradiction].
      cbn [bind]. destruct (Z.eqb_spec r 0) as [-> |]; [|discriminate]. destruct y as [n|]; [|discriminate].
      specialize (IH e1 (L ++ [n])). destruct (lua_loop beyond fuel d j e1) as [[l ok]| | |]; try discriminate. exfalso. apply IH; [| |reflexivity].
      + clear -R X. induction R as [e|e e' n' l e'' Q R IH]; cbn [app]; [econstructor; [exact X|constructor]|econstructor; [exact Q|now apply IH]].
      + rewrite app_length. cbn [length]. lia. }
  exact (G k (enum_new Networks false) [] (returns_nil _ _) ltac:(reflexivity) H).
Qed.
Lemma lua_texts : forall ctz0 held key1 key2 os w x w' f,
  Forall call_ok os -> program ctz0 held key1 key2 os = Ok w -> write_to ctz0 held key1 key2 w x = Ok (0%Z, w', f) ->
  N.of_nat (length f) < 2 ^ 32 -> s_now x < 2 ^ 63 ->
  forall rounded file path, ~ In 0 path -> file path = Some f -> exists d, lua_open (LuaStr path) file = Ok (Is d) /\ db_open f = Ok d /\
    lua_db_text get_vendor d = Ok (Is (vendor (meaning os))) /\ lua_db_text get_description d = Ok (Is (description (meaning os))) /\
    lua_db_text get_license d = Ok (Is (license (meaning os))) /\ ((forall z, (0 <= z <= 2 ^ 53)%Z -> rounded z = z) -> s_now x <= 2 ^ 53 -> lua_created_at rounded d = Z.of_N (s_now x)).
Proof.
  intros ctz0 held key1 key2 os w x w' f C P W Sz Now rounded file path Z Fi. destruct (written_metadata _ _ _ _ os w x w' f C P W Sz ltac:(lia)) as (d & D & V1 & V2 & V3 & V4 & _).
  exists d. unfold lua_open. cbn [check_string]. rewrite no_nul by exact Z. rewrite Fi, D. split; [reflexivity|]. split; [reflexivity|]. unfold lua_db_text. rewrite V1, V2, V3.
  split; [reflexivity|]. split; [reflexivity|]. split; [reflexivity|]. intros R L. unfold lua_created_at. rewrite V4. cbv zeta.
  replace (Z.of_N (s_now x) <? 2 ^ 63)%Z with true by lia. apply R. lia.
Qed.
Lemma lua_as_text : forall a, as_number a < 2 ^ 31 -> exists digits, plain_decimal digits (as_number a) /\
  lua_as_str a = txt "AS" ++ digits ++ match as_name a with Some name => txt " - " ++ name | None => [] end.
Proof.
  intros a L. exists (dec (as_number a)). split; [apply dec_plain; lia|]. unfold lua_as_str, int_text. now replace (as_number a <? 2 ^ 31) with true by lia.
Qed.
Lemma lua_as_negative : forall a, 2 ^ 31 <= as_number a < 2 ^ 32 -> exists digits, plain_decimal digits (2 ^ 32 - as_number a) /\
  lua_as_str a = txt "AS-" ++ digits ++ match as_name a with Some name => txt " - " ++ name | None => [] end.
Proof.
  intros a L. exists (dec (2 ^ 32 - as_number a)). split; [apply dec_plain; lia|]. unfold lua_as_str, int_text. now replace (as_number a <? 2 ^ 31) with false by lia.
Qed.
Lemma lua_get_as_undefined : forall number_of d t s, (forall z, t = Some z -> ~ (0 <= z < 2 ^ 32)%Z) -> lua_get_as_number number_of d (LuaNum t s) = UB.
Proof.
  intros number_of d t s H. unfold lua_get_as_number. cbn [check_number]. destruct t as [z|]; [|reflexivity]. specialize (H z eq_refl).
  unfold to_unsigned. now replace ((0 <=? z) && (z <? 2 ^ 32))%Z with false by lia.
Qed.
Lemma lua_pointers : forall n v suffix, valid_network n -> (v = LuaNil /\ suffix = None \/ exists s, ~ In 0 s /\ v = LuaStr s /\ suffix = Some s) ->
  (n_family n = AF_INET6 ->
   ((n_prefix n mod 4 = 0)%nat -> exists labels, Forall2 nibble_label labels (rev (map (fun i => nibble i (num (n_first n))) (seq 0 (n_prefix n / 4)))) /\
      lua_reverse_pointer n v = Ok (Is (dotted ((if num (n_first n) =? num (n_last n) then [] else [txt "*"]) ++ labels) ++
        match suffix with None => txt "ip6.arpa." | Some s => s end))) /\
   ((n_prefix n mod 4 <> 0)%nat -> lua_reverse_pointer n v = Ok Nothing)) /\
  (n_family n = AF_INET ->
   ((n_prefix n mod 8 = 0)%nat -> exists labels, Forall2 plain_decimal labels (rev (map (fun i => octet4 i (num (n_first n))) (seq 0 ((n_prefix n - 96) / 8)))) /\
      lua_reverse_pointer n v = Ok (Is (dotted ((if num (n_first n) =? num (n_last n) then [] else [txt "*"]) ++ labels) ++
        match suffix with None => txt "in-addr.arpa." | Some s => s end))) /\
   ((n_prefix n mod 8 <> 0)%nat -> lua_reverse_pointer n v = Ok Nothing)).
Proof.
  intros n v suffix V A. assert (O : opt_string v = Some suffix).
  { destruct A as [[-> ->]|(s & Z & -> & ->)]; [reflexivity|]. cbn [opt_string check_string]. now rewrite no_nul. }
  destruct (lua_pointer n v suffix O) as [P1 P2]. split; intros F.
  - destruct (pointer6_labels n suffix V F) as [L1 L2]. split; intros M; [|now apply P2, L2]. destruct (L1 M) as (labels & Q & E). exists labels. split; [exact Q|]. now apply P1.
  - destruct (pointer4_labels n suffix V F) as [L1 L2]. split; intros M; [|now apply P2, L2]. destruct (L1 M) as (labels & Q & E). exists labels. split; [exact Q|]. now apply P1.
Qed.
