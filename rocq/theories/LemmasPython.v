(** The objects of the Python binding *)
From Coq Require Import NArith ZArith List Bool Lia ZifyBool ZifyNat ZifyN.
From Verif Require Import Base LemmasBase ModelAddress LemmasAddress ModelCountryCode ModelNetwork LemmasNetwork SpecNetwork LemmasSpecNetwork
  LemmasSpecAddress LemmasNetworkProps ModelObjects SpecObjects LemmasObjects SpecText ModelBindings SpecCommand LemmasBindings LemmasEnumDb ModelPython SpecPython.
Import ListNotations.
Open Scope N_scope.

Lemma operators_of : forall A (cmp : A -> A -> Z) (eq lt : A -> A -> Prop) a b,
  ((cmp a b = 0)%Z <-> eq a b) -> ((cmp a b < 0)%Z <-> lt a b) -> ((cmp b a < 0)%Z <-> lt b a) -> operators cmp eq lt a b.
Proof.
  intros A cmp eq lt a b E L G same. exists (cmp a b =? 0)%Z, (cmp a b <? 0)%Z, (cmp b a <? 0)%Z. unfold py_compare. cbn [richcompare swapped].
  split; [reflexivity|]. split; [rewrite Z.eqb_eq; exact E|]. split; [reflexivity|]. split; [rewrite Z.ltb_lt; exact L|].
  split; [reflexivity|]. split; [rewrite Z.ltb_lt; exact G|]. split; reflexivity.
Qed.

(** ** Networks *)
Lemma net_less : forall n m, net_wf n -> net_wf m -> num (n_first n) = num (n_first m) ->
  ((n_prefix n < n_prefix m)%nat <-> num (n_last m) < num (n_last n)).
Proof.
  intros n m Hn Hm E. change (num (n_last m)) with (hi m). change (num (n_last n)) with (hi n). rewrite !hi_lo by auto.
  change (lo n = lo m) in E. rewrite E. pose proof (w_prefix n Hn) as Pn. pose proof (w_prefix m Hm) as Pm. unfold blk.
  assert (M : forall a b, (a < b)%nat -> 2 ^ N.of_nat a < 2 ^ N.of_nat b) by (intros a b L; apply N.pow_lt_mono_r; lia).
  assert (P : forall a, 0 < 2 ^ N.of_nat a) by (intros a; apply N.neq_0_lt_0, N.pow_nonzero; lia).
  pose proof (P (128 - n_prefix n)%nat) as P1. pose proof (P (128 - n_prefix m)%nat) as P2.
  destruct (Nat.lt_trichotomy (n_prefix n) (n_prefix m)) as [L | [L | L]].
  - assert (X : (128 - n_prefix m < 128 - n_prefix n)%nat) by lia. pose proof (M _ _ X). lia.
  - rewrite L. lia.
  - assert (X : (128 - n_prefix n < 128 - n_prefix m)%nat) by lia. pose proof (M _ _ X). lia.
Qed.
Lemma cmp_before : forall n m, valid_network n -> valid_network m -> ((network_cmp n m < 0)%Z <-> network_before n m).
Proof.
  intros n m Vn Vm. destruct (network_cmp_key n m Vn Vm) as (L & _ & _). rewrite L. unfold network_before.
  apply valid_net_wf in Vn, Vm. pose proof (net_less n m Vn Vm). tauto.
Qed.
Lemma same_bounds : forall n m, net_wf n -> net_wf m ->
  (same_network n m <-> num (n_first n) = num (n_first m) /\ num (n_last n) = num (n_last m)).
Proof.
  intros n m Hn Hm. unfold same_network, member. change (num (n_last m)) with (hi m). change (num (n_last n)) with (hi n).
  change (num (n_first m)) with (lo m). change (num (n_first n)) with (lo n).
  assert (P : forall a, 0 < 2 ^ N.of_nat a) by (intros a; apply N.neq_0_lt_0, N.pow_nonzero; lia).
  pose proof (P (128 - n_prefix n)%nat) as P1. pose proof (P (128 - n_prefix m)%nat) as P2.
  pose proof (hi_lo n Hn) as H1. pose proof (hi_lo m Hm) as H2. unfold blk in H1, H2. split.
  - intros H. pose proof (H (lo n)). pose proof (H (lo m)). pose proof (H (hi n)). pose proof (H (hi m)). lia.
  - intros [-> ->]. reflexivity.
Qed.
Lemma cmp_same : forall n m, valid_network n -> valid_network m -> ((network_cmp n m = 0)%Z <-> same_network n m).
Proof.
  intros n m Vn Vm. destruct (network_cmp_key n m Vn Vm) as (_ & E & _). rewrite E. split; [tauto|]. intros H. split; [|exact H].
  apply valid_net_wf in Vn, Vm. apply (same_bounds n m Vn Vm) in H as [A B]. pose proof (net_less n m Vn Vm A). pose proof (net_less m n Vm Vn (eq_sym A)). lia.
Qed.
Lemma network_operators : forall n m, valid_network n -> valid_network m -> operators network_cmp same_network network_before n m.
Proof. intros n m Vn Vm. apply operators_of; [apply cmp_same|apply cmp_before|apply cmp_before]; assumption. Qed.
Lemma network_order : total_order valid_network same_network network_before.
Proof.
  assert (S : forall n m, valid_network n -> valid_network m -> (same_network n m <-> num (n_first n) = num (n_first m) /\ num (n_last n) = num (n_last m)))
    by (intros n m Vn Vm; apply same_bounds; now apply valid_net_wf).
  unfold total_order, network_before. split; [|split; [|split; [|split; [|split]]]].
  - intros n m Vn Vm. rewrite (S n m Vn Vm). clear. lia.
  - intros n Vn. rewrite (S n n Vn Vn). auto.
  - intros n m Vn Vm. rewrite (S n m Vn Vm), (S m n Vm Vn). clear. lia.
  - intros n m k Vn Vm Vk. rewrite (S n m Vn Vm), (S m k Vm Vk), (S n k Vn Vk). clear. lia.
  - intros n m k Vn Vm Vk. clear. lia.
  - intros n m k Vn Vm Vk. rewrite (S n m Vn Vm). clear. lia.
Qed.

(** ** ASes *)
Definition same_number (a b : as_obj) : Prop := as_number a = as_number b.
Definition number_before (a b : as_obj) : Prop := as_number a < as_number b.
Lemma as_operators : forall a b, operators as_cmp (fun a b => as_number a = as_number b) (fun a b => as_number a < as_number b) a b.
Proof.
  intros a b. apply operators_of; rewrite as_cmp_key by trivial; unfold three.
  - destruct (N.compare_spec (as_number a) (as_number b)); lia.
  - destruct (N.compare_spec (as_number a) (as_number b)); lia.
  - destruct (N.compare_spec (as_number b) (as_number a)); lia.
Qed.
Lemma as_order : total_order (fun _ => True) (fun a b => as_number a = as_number b) (fun a b => as_number a < as_number b).
Proof. unfold total_order. repeat split; intros; lia. Qed.

(** ** Countries *)
Lemma ok_two : forall c, code_ok c -> country_ok c.
Proof. unfold code_ok, country_ok, two_letters. intros c. lia. Qed.
Lemma before_key : forall a b, code_ok a -> code_ok b -> (code_before a b <-> country_key a < country_key b).
Proof.
  unfold code_before, code_ok, code_of, country_key, code_number. intros a b. destruct (c_code a) as [a0 a1], (c_code b) as [b0 b1]. cbn [fst snd].
  intros [A0 A1] [B0 B1]. split.
  - intros (x & y & z & x' & z' & E1 & E2 & L). destruct x as [|u [|u' x]]; cbn [app] in E1, E2.
    + injection E1 as -> _. injection E2 as -> _. lia.
    + injection E1 as -> -> _. injection E2 as -> -> _. lia.
    + injection E1 as _ _ E1. now destruct x.
  - intros L. destruct (N.lt_trichotomy a0 b0) as [X | [X | X]].
    + exists [], a0, [a1], b0, [b1]. auto.
    + exists [a0], a1, [], b1, []. subst. repeat split; auto. lia.
    + lia.
Qed.
Lemma same_key : forall a b, code_ok a -> code_ok b -> (code_of a = code_of b <-> country_key a = country_key b).
Proof.
  unfold code_ok, code_of, country_key, code_number. intros a b. destruct (c_code a) as [a0 a1], (c_code b) as [b0 b1]. cbn [fst snd].
  intros [A0 A1] [B0 B1]. split; [congruence|]. intros E. assert (a0 = b0) by lia. assert (a1 = b1) by lia. congruence.
Qed.
Lemma country_operators : forall a b, code_ok a -> code_ok b -> operators country_cmp (fun a b => code_of a = code_of b) code_before a b.
Proof.
  intros a b A B. pose proof (ok_two a A). pose proof (ok_two b B). apply operators_of; rewrite country_cmp_key by assumption; unfold three.
  - rewrite same_key by assumption. destruct (N.compare_spec (country_key a) (country_key b)); lia.
  - rewrite before_key by assumption. destruct (N.compare_spec (country_key a) (country_key b)); lia.
  - rewrite before_key by assumption. destruct (N.compare_spec (country_key b) (country_key a)); lia.
Qed.
Lemma country_order : total_order code_ok (fun a b => code_of a = code_of b) code_before.
Proof.
  unfold total_order. split; [|split; [|split; [|split; [|split]]]].
  - intros a b A B. rewrite !before_key, same_key by assumption. lia.
  - reflexivity.
  - intros a b A B. apply eq_sym.
  - intros a b c A B C. apply eq_trans.
  - intros a b c A B C. rewrite !before_key by assumption. lia.
  - intros a b c A B C. rewrite !before_key, same_key by assumption. lia.
Qed.

(** ** Hashes *)
Lemma as_hash : forall a b same, py_compare as_cmp same EQ a b = value true -> py_as_hash a = py_as_hash b /\ exists z, py_as_hash a = value z.
Proof.
  intros a b same H. destruct (as_operators a b same) as (e & l & g & E & Ie & _). rewrite H in E. assert (e = true) as -> by (unfold value in E; congruence).
  unfold py_as_hash. rewrite (proj1 Ie eq_refl). eauto.
Qed.
Lemma as_hash_apart : forall a b same, py_compare as_cmp same EQ a b = value false -> py_as_hash a <> py_as_hash b.
Proof.
  intros a b same H Eh. destruct (as_operators a b same) as (e & l & g & E & Ie & _). rewrite H in E. assert (e = false) as -> by (unfold value in E; congruence).
  enough (false = true) by discriminate. apply Ie. unfold py_as_hash, value in Eh. assert (Z.of_N (as_number a) = Z.of_N (as_number b)) by congruence. lia.
Qed.
Lemma code_text : forall c, code_ok c -> py_code c = value (code_of c).
Proof.
  unfold code_ok, py_code, code_of, cc_str, py_text. intros c. destruct (c_code c) as [a b]. cbn [fst snd]. intros [A B].
  replace (a =? 0) with false by lia. replace (b =? 0) with false by lia. rewrite ascii_utf8; [reflexivity|]. repeat constructor; lia.
Qed.
Lemma country_hash : forall str_hash a b same, code_ok a -> code_ok b -> py_compare country_cmp same EQ a b = value true ->
  py_country_hash str_hash a = py_country_hash str_hash b /\ exists z, py_country_hash str_hash a = value z.
Proof.
  intros str_hash a b same A B H. destruct (country_operators a b A B same) as (e & l & g & E & Ie & _). rewrite H in E.
  assert (e = true) as -> by (unfold value in E; congruence). unfold py_country_hash. rewrite !code_text by assumption. rewrite (proj1 Ie eq_refl).
  split; [reflexivity|]. eexists. reflexivity.
Qed.

(** ** Attributes of networks *)
Lemma asn_set : forall n z, (1 <= z <= 2 ^ 32 - 1)%Z ->
  exists n', py_set_asn n (PyInt z) = Stored n' /\ but_asn n n' /\ py_asn n' = Some (Z.to_N z).
Proof.
  intros n z L. exists (with_asn n (Z.to_N z)). unfold py_set_asn, as_long. replace ((- 2 ^ 63 <=? z) && (z <? 2 ^ 63))%Z with true by lia.
  replace (z <=? 0)%Z with false by lia. replace (2 ^ 32 - 1 <? z)%Z with false by lia. split; [reflexivity|]. split; [reflexivity|].
  unfold py_asn, with_asn. cbn [n_asn]. now replace (Z.to_N z =? 0) with false by lia.
Qed.
Lemma asn_refused : forall n v, (forall z, v = PyInt z -> ~ (1 <= z <= 2 ^ 32 - 1)%Z) -> py_set_asn n v = Refused ValueError n.
Proof.
  intros n v H. unfold py_set_asn. destruct (as_long v <=? 0)%Z eqn:L; [reflexivity|]. destruct (2 ^ 32 - 1 <? as_long v)%Z eqn:G; [reflexivity|]. exfalso.
  destruct v as [s|z| |]; cbn [as_long] in L, G; try discriminate. specialize (H z eq_refl).
  destruct ((- 2 ^ 63 <=? z) && (z <? 2 ^ 63))%Z; [|discriminate]. lia.
Qed.
Lemma plain_nul : forall s, plain_text s -> as_utf8 (PyStr s) = Ok (inl s).
Proof.
  intros s [T Z]. cbn [as_utf8]. apply utf8_iff in T. rewrite T. do 2 f_equal. clear T. induction s as [|c s IH]; [reflexivity|]. cbn [to_nul].
  replace (c =? 0) with false; [f_equal; apply IH; intros I; apply Z; now right|]. symmetry. apply N.eqb_neq. intros ->. apply Z. now left.
Qed.
Lemma plain_utf8 : forall s, plain_text s -> utf8 s = true.
Proof. intros s [T _]. now apply utf8_iff. Qed.
Lemma code_set : forall n s, plain_text s -> s = [] \/ letters s ->
  exists n', py_set_country_code n (PyStr s) = Ok (Stored n') /\ but_code n n' /\ py_country_code n' = value s.
Proof.
  intros n s P [-> | (a & b & -> & A & B & X)]; unfold py_set_country_code; rewrite plain_nul by exact P; cbn [bind].
  - eexists. split; [reflexivity|]. split; reflexivity.
  - unfold set_country_code. rewrite (proj2 (cc_valid_iff a b)) by auto. cbn [negb]. eexists. split; [reflexivity|]. split; [reflexivity|].
    unfold py_country_code, get_country_code, with_cc, cc_copy, chr, cc_str. cbn [n_cc nth]. replace (a =? 0) with false by lia. replace (b =? 0) with false by lia.
    unfold py_text. now rewrite plain_utf8.
Qed.
Lemma code_refused : forall n s, plain_text s -> s <> [] -> ~ letters s -> py_set_country_code n (PyStr s) = Ok (Refused ValueError n).
Proof.
  intros n s P E L. unfold py_set_country_code. rewrite plain_nul by exact P. cbn [bind]. unfold set_country_code. destruct s as [|c s]; [contradiction|].
  destruct (cc_is_valid (Some (c :: s))) eqn:V; [|reflexivity]. destruct L. destruct (cc_valid_two _ V) as (a & b & K). exists a, b. exact K.
Qed.
(** the flags that an int stands for *)
Lemma land_bits : forall x y, N.land x y =? 0 = false <-> exists i, N.testbit x i = true /\ N.testbit y i = true.
Proof.
  intros x y. rewrite N.eqb_neq. split.
  - intros H. exists (N.log2 (N.land x y)). apply N.bit_log2 in H. rewrite N.land_spec in H. now apply andb_prop.
  - intros (i & A & B) E. assert (X : N.testbit (N.land x y) i = true) by now rewrite N.land_spec, A, B. rewrite E, N.bits_0 in X. discriminate.
Qed.
Lemma int_bits : forall z i, N.testbit (Z.to_N (z mod 2 ^ 32)) i = (i <? 32) && Z.testbit z (Z.of_N i).
Proof.
  intros z i. rewrite <- Z.testbit_of_N. rewrite Z2N.id by (apply Z.mod_pos_bound; lia).
  destruct (N.ltb_spec i 32) as [L|L]; cbn [andb]; [apply Z.mod_pow2_bits_low; lia|apply Z.mod_pow2_bits_high; lia].
Qed.
Lemma int_ok : forall z, (- 2 ^ 31 <= z < 2 ^ 31)%Z -> as_int (PyInt z) = inl z.
Proof. intros z L. unfold as_int. now replace ((- 2 ^ 31 <=? z) && (z <? 2 ^ 31))%Z with true by lia. Qed.
Definition shares (f : N) (z : Z) : Prop := exists i, i < 32 /\ N.testbit f i = true /\ Z.testbit z (Z.of_N i) = true.
Lemma flag_get : forall n z, (- 2 ^ 31 <= z < 2 ^ 31)%Z -> exists b, py_get_flag n (PyInt z) = value b /\
  (b = true <-> exists i, i < 32 /\ N.testbit (n_flags n) i = true /\ Z.testbit z (Z.of_N i) = true).
Proof.
  intros n z L. unfold py_get_flag. rewrite int_ok by exact L. eexists. split; [reflexivity|]. unfold has_flag. rewrite negb_true_iff, land_bits.
  split; intros (i & H).
  - exists i. rewrite int_bits in H. destruct H as [A B]. apply andb_prop in B as [B C]. repeat split; auto. lia.
  - exists i. rewrite int_bits. destruct H as (A & B & C). split; auto. rewrite C. now replace (i <? 32) with true by lia.
Qed.
Lemma flag_set : forall n z, (- 2 ^ 31 <= z < 2 ^ 31)%Z -> exists n', py_set_flag n (PyInt z) = Stored n' /\ but_flags n n' /\
  forall i, N.testbit (n_flags n') i = N.testbit (n_flags n) i || ((i <? 32) && Z.testbit z (Z.of_N i)).
Proof.
  intros n z L. unfold py_set_flag. rewrite int_ok by exact L. eexists. split; [reflexivity|]. split; [reflexivity|]. intros i. unfold set_flag, with_flags. cbn [n_flags].
  now rewrite N.lor_spec, int_bits.
Qed.
Lemma flag_refused : forall n v, (forall z, v = PyInt z -> ~ (- 2 ^ 31 <= z < 2 ^ 31)%Z) ->
  exists e, py_set_flag n v = Refused e n /\ py_get_flag n v = raise e.
Proof.
  intros n v H. unfold py_set_flag, py_get_flag. destruct (as_int v) as [z|e] eqn:E; [|eauto]. exfalso. destruct v as [s|z'| |]; try discriminate.
  apply (H z' eq_refl). cbn [as_int] in E. destruct ((- 2 ^ 31 <=? z') && (z' <? 2 ^ 31))%Z eqn:G; [lia|discriminate].
Qed.

(** ** Names and codes of ASes and countries *)
Lemma as_made : forall id z, (0 <= z < 2 ^ 31)%Z -> exists a, py_as id (PyInt z) = value a /\ py_number a = z.
Proof.
  intros id z L. unfold py_as. rewrite int_ok by lia. eexists. split; [reflexivity|]. unfold py_number, as_new. cbn [as_number].
  rewrite Z.mod_small by lia. lia.
Qed.
Lemma as_named : forall a s, plain_text s -> exists a', py_set_as_name a (PyStr s) = Ok (Stored a') /\ py_as_name a' = value s /\ py_number a' = py_number a.
Proof.
  intros a s P. unfold py_set_as_name. rewrite plain_nul by exact P. cbn [bind]. eexists. split; [reflexivity|]. split; [|reflexivity].
  unfold py_as_name, as_set_name, py_text. cbn [as_name]. now rewrite plain_utf8.
Qed.
Lemma nul_absent : forall s : cstr, ~ In 0 s -> existsb (fun c => c =? 0) s = false.
Proof.
  intros s H. destruct (existsb (fun c => c =? 0) s) eqn:E; [|reflexivity]. apply existsb_exists in E as (c & I & E). apply N.eqb_eq in E. subst. contradiction.
Qed.
Lemma country_made : forall id s, plain_text s -> (letters s -> exists c, py_country id (PyStr s) = value c /\ code_ok c /\ py_code c = value s) /\
  (~ letters s -> py_country id (PyStr s) = raise SystemError).
Proof.
  intros id s P. unfold py_country, py_arg. rewrite (plain_utf8 s P), (nul_absent s (proj2 P)). cbn [negb andb value pbind bind]. split.
  - intros (a & b & -> & A & B & X). unfold country_new. rewrite (proj2 (cc_valid_iff a b)) by auto. cbn [negb]. eexists. split; [reflexivity|].
    unfold cc_copy, chr. cbn [nth]. match goal with |- ?g /\ _ => assert (K : g) by (unfold code_ok; cbn [c_code fst snd]; lia) end.
    split; [exact K|]. now rewrite code_text.
  - intros L. unfold country_new. destruct (cc_is_valid (Some s)) eqn:V; [|reflexivity]. destruct L. destruct (cc_valid_two _ V) as (a & b & K). exists a, b. exact K.
Qed.
Lemma country_named : forall c s, c_name c <> Dangling -> plain_text s -> exists c', py_set_country_name c (PyStr s) = Ok (Stored c') /\
  py_country_name c' = value (Some s) /\ py_code c' = py_code c /\ py_continent c' = py_continent c.
Proof.
  intros c s D P. unfold py_set_country_name. rewrite plain_nul by exact P. cbn [bind]. unfold country_set_name.
  destruct (c_name c) eqn:E; [| |contradiction]; cbn [bind]; eexists; (split; [reflexivity|]); (split; [|split; reflexivity]);
    unfold py_country_name, country_get_name, py_text; cbn [c_name bind]; rewrite plain_utf8 by exact P; reflexivity.
Qed.
Lemma continent_set : forall c s, plain_text s -> length s = 2%nat -> exists c', py_set_continent c (PyStr s) = Ok (Stored c') /\
  py_continent c' = value (Some s) /\ py_code c' = py_code c /\ c_name c' = c_name c.
Proof.
  intros c s P L. unfold py_set_continent. rewrite plain_nul by exact P. cbn [bind]. unfold country_set_continent_code. rewrite L. cbn [Nat.eqb negb].
  eexists. split; [reflexivity|]. split; [|split; reflexivity]. pose proof (plain_utf8 s P) as U. destruct P as [_ Z].
  destruct s as [|a [|b [|x s]]]; try discriminate. assert (A : a <> 0) by (intros ->; apply Z; now left).
  assert (B : b <> 0) by (intros ->; apply Z; right; now left). unfold py_continent, country_get_continent_code, cc_copy, chr, cc_str. cbn [nth c_continent fst].
  replace (a =? 0) with false by lia. replace (b =? 0) with false by lia. unfold py_text. rewrite U. reflexivity.
Qed.
Lemma continent_refused : forall c s, plain_text s -> length s <> 2%nat -> py_set_continent c (PyStr s) = Ok (Refused ValueError c).
Proof.
  intros c s P L. unfold py_set_continent. rewrite plain_nul by exact P. cbn [bind]. unfold country_set_continent_code. apply Nat.eqb_neq in L. now rewrite L.
Qed.

(** ** Packed addresses *)
Lemma mapped_is : forall v, mappedb v = true <-> is_ipv4 v.
Proof.
  intros v. unfold mappedb, is_ipv4. rewrite N.eqb_eq. change (2 ^ 32) with 4294967296. pose proof (N.div_mod v 4294967296 ltac:(lia)).
  pose proof (N.mod_lt v 4294967296 ltac:(lia)). lia.
Qed.
Lemma packed_4 : forall a, wf a -> is_ipv4 (num a) -> length (py_packed a) = 4%nat /\ be (py_packed a) = num a - 0xffff00000000.
Proof.
  intros a W I. unfold py_packed. rewrite v4mapped_val by exact W. change (num a) with (val a) in *. rewrite (proj2 (mapped_is (val a)) I).
  rewrite skipn_length, (proj1 W). split; [reflexivity|]. rewrite be_skipn_mod by (auto; lia). change (256 ^ N.of_nat (16 - 12)) with 4294967296.
  unfold is_ipv4 in I. clear -I. pose proof (N.div_mod (val a) 4294967296 ltac:(lia)). pose proof (N.mod_lt (val a) 4294967296 ltac:(lia)). lia.
Qed.
Lemma packed_16 : forall a, wf a -> ~ is_ipv4 (num a) -> length (py_packed a) = 16%nat /\ be (py_packed a) = num a.
Proof.
  intros a W I. unfold py_packed. rewrite v4mapped_val by exact W. change (num a) with (val a) in *. destruct (mappedb (val a)) eqn:E; [apply mapped_is in E; contradiction|].
  rewrite (proj1 W). split; reflexivity.
Qed.
Lemma packed_net : forall n, valid_network n ->
  (n_family n = AF_INET -> (length (py_packed (n_first n)) = 4%nat /\ be (py_packed (n_first n)) = num (n_first n) - 0xffff00000000) /\
    (length (py_packed (n_last n)) = 4%nat /\ be (py_packed (n_last n)) = num (n_last n) - 0xffff00000000)) /\
  (n_family n <> AF_INET -> (length (py_packed (n_first n)) = 16%nat /\ be (py_packed (n_first n)) = num (n_first n)) /\
    (~ is_ipv4 (num (n_last n)) -> length (py_packed (n_last n)) = 16%nat /\ be (py_packed (n_last n)) = num (n_last n))).
Proof.
  intros n V. pose proof (vn_family n V) as F. apply valid_net_wf in V. pose proof (w_first n V) as W1. pose proof (w_last n V) as W2. split.
  - intros E. split; apply packed_4; auto; [now apply F|]. assert (M : inb n (hi n)).
    { unfold inb. rewrite (hi_lo n V). unfold blk. pose proof (N.pow_nonzero 2 (N.of_nat (128 - n_prefix n)) ltac:(lia)). lia. }
    apply (mapped_members n (hi n) V E) in M. unfold is_ipv4. change (num (n_last n)) with (hi n). lia.
  - intros E. split; [|intros L]; apply packed_16; auto. rewrite <- F. exact E.
Qed.
