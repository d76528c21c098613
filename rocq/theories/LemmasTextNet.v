(** Networks as text, the buffers of loc_address_str, reverse pointers. *)
From Coq Require Import NArith ZArith List Bool Arith Lia ZifyBool ZifyNat ZifyN.
From Verif Require Import Base LemmasBase ModelAddress LemmasAddress ModelCountryCode ModelNetwork LemmasNetwork
  SpecNetwork LemmasSpecNetwork LemmasNetworkProps ModelText SpecText LemmasText LemmasTextAddr.
Import ListNotations.
Open Scope N_scope.

(** * The ring of buffers *)
Definition ring_ok (r : ring) : Prop := length (r_buffers r) = 6%nat /\ (r_idx r < 6)%nat.
Lemma ring0_ok : ring_ok ring0.
Proof. split; cbn; lia. Qed.

Lemma address_str_some r a : ring_ok r -> wf a ->
  address_str r (Some a) = Ok (mkRing (upd (r_buffers r) (r_idx r) (text a)) ((r_idx r + 1) mod 6), Some (r_idx r)).
Proof.
  intros [L I] W. unfold address_str. replace (ADDRESS_BUFFERS <=? r_idx r)%nat with false by (unfold ADDRESS_BUFFERS; lia).
  now rewrite address_text_eq.
Qed.

Lemma ring_next r a : ring_ok r -> ring_ok (mkRing (upd (r_buffers r) (r_idx r) (text a)) ((r_idx r + 1) mod 6)).
Proof.
  intros [L I]. split; cbn [r_buffers r_idx]; [now rewrite upd_length|]. apply Nat.mod_upper_bound. lia.
Qed.

Lemma strs_ok l : forall r, ring_ok r -> Forall addr_arg l -> exists r', address_strs r l = Ok r' /\ ring_ok r'.
Proof.
  induction l as [|a l IH]; intros r R F; [cbn; eauto|]. inversion F; subst. cbn [address_strs]. destruct a as [a|].
  - rewrite address_str_some by (auto; now apply is_addr_wf). cbn [bind fst]. apply IH; auto. now apply ring_next.
  - cbn [address_str bind fst]. auto.
Qed.

Lemma strs_keep l : forall r i j, ring_ok r -> Forall addr_arg l -> (i < 6)%nat -> (1 <= j)%nat ->
  r_idx r = ((i + j) mod 6)%nat -> (j + formatted l <= 6)%nat ->
  exists r', address_strs r l = Ok r' /\ ring_ok r' /\ deref r' i = deref r i /\
    r_idx r' = ((i + j + formatted l) mod 6)%nat.
Proof.
  induction l as [|a l IH]; intros r i j R F I J E B.
  - exists r. split; auto. split; auto. split; auto. cbn. now rewrite Nat.add_0_r.
  - inversion F; subst. cbn [address_strs]. destruct a as [a|].
    + unfold formatted in *. cbn [filter given length] in *.
      rewrite address_str_some by (auto; now apply is_addr_wf). cbn [bind fst].
      destruct (IH (mkRing (upd (r_buffers r) (r_idx r) (text a)) ((r_idx r + 1) mod 6)) i (S j)) as (r' & A & B' & C & D); auto; try lia.
      * now apply ring_next.
      * cbn [r_idx]. rewrite E, Nat.add_mod_idemp_l by lia. f_equal. lia.
      * exists r'. split; auto. split; auto. split.
        -- rewrite C. unfold deref. cbn [r_buffers]. apply nth_upd_neq. rewrite E. intros Q.
           assert (C' : (i + j = i + j mod 6 \/ i + j >= 6)%nat) by lia.
           destruct (Nat.lt_ge_cases (i + j) 6); [rewrite Nat.mod_small in Q by lia; lia|].
           replace (i + j)%nat with (i + j - 6 + 1 * 6)%nat in Q by lia. rewrite Nat.mod_add in Q by lia.
           rewrite Nat.mod_small in Q by lia. lia.
        -- rewrite D. f_equal. lia.
    + cbn [address_str bind fst]. apply IH; auto.
Qed.

Lemma survives before a later : Forall addr_arg before -> is_addr a -> Forall addr_arg later ->
  (formatted later <= 5)%nat ->
  exists r r1 r2 p, address_strs ring0 before = Ok r /\ address_str r (Some a) = Ok (r1, Some p) /\
    address_strs r1 later = Ok r2 /\ deref r2 p = deref r1 p /\
    address_parse false (Some (deref r1 p)) = Ok (a, 0).
Proof.
  intros FB WA FL L. destruct (strs_ok before ring0 ring0_ok FB) as (r & E & R).
  apply is_addr_wf in WA. pose proof (address_str_some r a R WA) as E1.
  set (r1 := mkRing (upd (r_buffers r) (r_idx r) (text a)) ((r_idx r + 1) mod 6)) in *.
  assert (R1 : ring_ok r1) by now apply ring_next.
  destruct (strs_keep later r1 (r_idx r) 1 R1 FL) as (r2 & E2 & _ & K & _); auto; try apply R; try lia.
  exists r, r1, r2, (r_idx r). split; auto. split; auto. split; auto. split; auto.
  unfold deref, r1. cbn [r_buffers]. rewrite nth_upd_eq by (destruct R; lia). now apply parse_text.
Qed.

Lemma sixth before a later b : Forall addr_arg before -> is_addr a -> Forall addr_arg later -> is_addr b ->
  formatted later = 5%nat ->
  exists r r1 r2 p, address_strs ring0 before = Ok r /\ address_str r (Some a) = Ok (r1, Some p) /\
    address_strs r1 (later ++ [Some b]) = Ok r2 /\ address_parse false (Some (deref r2 p)) = Ok (b, 0).
Proof.
  intros FB WA FL WB L. destruct (strs_ok before ring0 ring0_ok FB) as (r & E & R).
  apply is_addr_wf in WA. apply is_addr_wf in WB. pose proof (address_str_some r a R WA) as E1.
  set (r1 := mkRing (upd (r_buffers r) (r_idx r) (text a)) ((r_idx r + 1) mod 6)) in *.
  assert (R1 : ring_ok r1) by now apply ring_next.
  destruct (strs_keep later r1 (r_idx r) 1 R1 FL) as (r2 & E2 & R2 & K & I2); auto; try apply R; try lia.
  rewrite L in I2. replace (r_idx r + 1 + 5)%nat with (r_idx r + 1 * 6)%nat in I2 by lia.
  rewrite Nat.mod_add, Nat.mod_small in I2 by (destruct R; lia).
  assert (G : address_strs r1 (later ++ [Some b]) =
    Ok (mkRing (upd (r_buffers r2) (r_idx r2) (text b)) ((r_idx r2 + 1) mod 6))).
  { clearbody r1. clear - E2 R2 WB. revert r1 E2. induction later as [|x l IH]; intros r1 E2.
    - cbn [address_strs] in E2. injection E2 as ->. cbn [app address_strs].
      rewrite address_str_some by auto. reflexivity.
    - cbn [app address_strs] in *. destruct (address_str r1 x) as [y| | |]; try discriminate. cbn [bind] in *. auto. }
  exists r, r1. eexists. exists (r_idx r). split; auto. split; auto. split; [exact G|].
  unfold deref. cbn [r_buffers]. rewrite I2, nth_upd_eq by (destruct R2, R; lia). now apply parse_text.
Qed.

(** * Networks *)
Lemma renew n : net_wf n -> exists m, network_new (n_first n) (network_prefix n) = Ok m /\
  n_first m = n_first n /\ n_last m = n_last n /\ n_prefix m = n_prefix n /\ n_family m = n_family n.
Proof.
  intros W. pose proof (network_new_spec (n_first n) (network_prefix n) (w_first n W)) as S0.
  fold (lo n) in S0. rewrite raw_network_prefix in S0 by auto.
  replace (network_prefix n <=? low_bits (lo n)) with true in S0.
  2:{ rewrite network_prefix_val by auto. pose proof (w_prefix n W). unfold low_bits. destruct (mappedb (lo n)); lia. }
  destruct S0 as (m & E & Wm & L & P & _). rewrite (w_lo n W) in L.
  exists m. split; auto. destruct (net_eq m n Wm W L P) as (A & B & C). auto.
Qed.

Lemma network_str_eq r n : ring_ok r -> net_wf n ->
  network_str r n = Ok (mkRing (upd (r_buffers r) (r_idx r) (text (n_first n))) ((r_idx r + 1) mod 6),
                        Some (text (n_first n) ++ SLASH :: dec (network_prefix n))).
Proof.
  intros R W. unfold network_str. rewrite address_str_some by (auto; apply W). cbn [bind].
  unfold deref. cbn [r_buffers]. rewrite nth_upd_eq by (destruct R; lia). do 3 f_equal. unfold snprintf.
  apply firstn_all2. rewrite app_length. cbn [length].
  pose proof (text_length (n_first n) (w_first n W)).
  assert (length (dec (network_prefix n)) <= 3)%nat; [|unfold TEXT_SIZE; lia].
  apply (dec_length 2); [|lia]. rewrite network_prefix_val by auto. pose proof (w_prefix n W).
  destruct (mappedb (lo n)); cbn; lia.
Qed.

Lemma prefix_bound n : net_wf n -> network_prefix n <= family_bit_length (addr_family (n_first n)).
Proof.
  intros W. rewrite network_prefix_val by auto. rewrite addr_family_val by apply W. fold (lo n).
  pose proof (w_prefix n W). destruct (mappedb (lo n)); cbn [family_bit_length]; lia.
Qed.

Lemma text_round_trip r n : ring_ok r -> net_wf n -> exists r' s m,
  network_str r n = Ok (r', Some s) /\ network_new_from_string (Some s) = Ok m /\
  n_first m = n_first n /\ n_last m = n_last n /\ n_prefix m = n_prefix n /\ n_family m = n_family n.
Proof.
  intros R W. destruct (renew n W) as (m & E & Q).
  do 2 eexists. exists m. split; [now apply network_str_eq|]. split; auto.
  pose proof (text_length (n_first n) (w_first n W)) as L. pose proof (prefix_bound n W) as PB.
  assert (P : network_prefix n <= 128) by (destruct (addr_family (n_first n)); cbn [family_bit_length] in PB; lia).
  assert (LD : (length (dec (network_prefix n)) <= 3)%nat) by (apply (dec_length 2); [cbn; lia|lia]).
  unfold network_new_from_string.
  rewrite address_parse_eq by (apply small_length; rewrite app_length; cbn [length]; lia).
  rewrite firstn_all2 by (rewrite app_length; cbn [length]; lia).
  rewrite split_slash_some by (apply text_noslash, W). rewrite pton_text by apply W. cbn [negb].
  rewrite (strtol_small _ (network_prefix n)); [|apply dec_plain; lia|lia]. cbv zeta.
  replace (family_bit_length (addr_family (n_first n)) <? network_prefix n) with false by lia.
  cbn [bind fst snd]. exact E.
Qed.

(** * Strings given by the user *)
(** the number of bits of the family of an address *)
Definition bits (v : N) : N := if mappedb v then 32 else 128.

Lemma parse_false t a : noslash t -> (length t <= 48)%nat ->
  address_parse false (Some t) = Ok (a, 0) <-> exists f, pton t = Some (a, f).
Proof.
  intros NS L. rewrite address_parse_eq by (apply small_length; lia).
  rewrite firstn_all2 by lia. rewrite split_slash_none by auto. cbn [negb].
  destruct (pton t) as [[b f]|].
  - split; [intros [= <-]; eauto|]. intros (g & [= <- <-]). reflexivity.
  - split; [discriminate|]. intros (f & [=]).
Qed.

Lemma low_bits_bits v : low_bits v = bits v.
Proof. reflexivity. Qed.

Lemma new_width a : wf a -> (is_ipv4 (num a) /\ N.to_nat (bits (val a)) = 32%nat \/ ~ is_ipv4 (num a) /\ N.to_nat (bits (val a)) = 128%nat).
Proof.
  intros W. rewrite is_ipv4_mapped. change (num a) with (val a). unfold bits. destruct (mappedb (val a)); [left|right]; split; auto; try reflexivity.
Qed.

(** prefixes written in digits *)
Lemma prefix_digits t d v a : noslash t -> (length (t ++ SLASH :: d) <= 48)%nat ->
  address_parse false (Some t) = Ok (a, 0) -> decimal d v -> v < 2 ^ 32 \/ 2 ^ 63 <= v ->
  (v <= bits (val a) -> exists n, network_new_from_string (Some (t ++ SLASH :: d)) = Ok n /\
     valid_network n /\ network_prefix n = v /\ member n (num a)) /\
  (bits (val a) < v -> network_new_from_string (Some (t ++ SLASH :: d)) = Err 1).
Proof.
  intros NS L P D V. assert (L' : (length t <= 48)%nat) by (rewrite app_length in L; lia).
  apply parse_false in P; auto. destruct P as [f P]. destruct (pton_wf _ _ _ P) as [W F].
  assert (B : bits (val a) <= family_bit_length f).
  { unfold bits. destruct f; cbn [family_bit_length]; [rewrite F by auto; lia|destruct (mappedb (val a)); lia]. }
  assert (Bm : bits (val a) <= 128) by (unfold bits; destruct (mappedb (val a)); lia).
  assert (E : address_parse true (Some (t ++ SLASH :: d)) =
     let v' := Z.to_N (strtol d mod 2 ^ 32) in if family_bit_length f <? v' then Err 1 else Ok (a, v')).
  { rewrite address_parse_eq by (apply small_length; lia). rewrite firstn_all2 by lia.
    rewrite split_slash_some by auto. now rewrite P. }
  assert (FB : family_bit_length f <= 128) by (destruct f; cbn; lia).
  unfold network_new_from_string. rewrite E. cbv zeta.
  destruct (network_new_block a v (N.to_nat (bits (val a))) (proj2 (is_addr_wf a) W) (new_width a W)) as [Y Z].
  rewrite N2Nat.id in *.
  split; intros Q.
  - rewrite (strtol_small d v D) by lia. replace (family_bit_length f <? v) with false by lia. cbn [bind fst snd].
    destruct (Y Q) as (n & A & B' & _ & M & _ & _ & PP & _). eauto.
  - destruct V as [V|V].
    + rewrite (strtol_small d v D V). destruct (family_bit_length f <? v); [reflexivity|exact (Z Q)].
    + rewrite (strtol_huge d v D V). replace (family_bit_length f <? 2 ^ 32 - 1) with true by lia. reflexivity.
Qed.

(** no prefix *)
Lemma prefix_none t a f : noslash t -> (length t <= 48)%nat -> pton t = Some (a, f) ->
  (f = addr_family a -> exists n, network_new_from_string (Some t) = Ok n /\ valid_network n /\
     n_first n = a /\ n_last n = a) /\
  (f <> addr_family a -> network_new_from_string (Some t) = Err 1).
Proof.
  intros NS L P. destruct (pton_wf _ _ _ P) as [W F].
  assert (E : network_new_from_string (Some t) = network_new a (family_bit_length f)).
  { unfold network_new_from_string. rewrite address_parse_eq by (apply small_length; lia).
    rewrite firstn_all2 by lia. rewrite split_slash_none by auto. now rewrite P. }
  rewrite E, addr_family_val by auto. pose proof (network_new_spec a (family_bit_length f) W) as S0.
  unfold low_bits in S0. unfold raw_prefix in S0. split; intros Q.
  - subst f. assert (B : family_bit_length (if mappedb (val a) then AF_INET else AF_INET6) =
      if mappedb (val a) then 32 else 128) by now destruct (mappedb (val a)).
    rewrite B in *. rewrite N.leb_refl in S0. destruct S0 as (n & A & Wn & Lo & Pn & _).
    exists n. split; auto. split; [now apply valid_net_wf|].
    assert (P128 : n_prefix n = 128%nat) by (rewrite Pn; destruct (mappedb (val a)); reflexivity).
    assert (V : lo n = val a).
    { rewrite Lo. rewrite <- Pn, P128. unfold first_of, blk. cbn [Nat.sub]. rewrite N.div_1_r. lia. }
    split; [apply val_inj; auto; apply Wn|]. apply val_inj; auto; [apply Wn|].
    fold (hi n). rewrite (hi_lo n Wn), P128, V. unfold blk. cbn. lia.
  - destruct f.
    + exfalso. apply Q. now rewrite F.
    + destruct (mappedb (val a)); [|contradiction]. exact S0.
Qed.

(** everything that is accepted *)
Lemma accepted s n : network_new_from_string (Some s) = Ok n -> valid_network n /\
  exists t p a, split_slash (firstn 48 s) = (t, p) /\ address_parse false (Some t) = Ok (a, 0) /\ member n (num a) /\
    network_prefix n <= bits (val a).
Proof.
  unfold network_new_from_string. destruct (N.ltb_spec (2 ^ 31 - 1) (N.of_nat (length s))) as [B|B].
  - unfold address_parse. replace (2 ^ 31 - 1 <? N.of_nat (length s)) with true by lia. discriminate.
  - rewrite address_parse_eq by auto. destruct (split_slash (firstn 48 s)) as [t p] eqn:S0.
    destruct (split_slash_inv _ _ _ S0) as [NS E0].
    assert (L : (length t <= 48)%nat).
    { pose proof (firstn_le_length 48 s). rewrite E0 in H. destruct p; [rewrite app_length in H|]; lia. }
    destruct (pton t) as [[a f]|] eqn:P; [|discriminate]. cbn [negb]. destruct (pton_wf _ _ _ P) as [W F].
    assert (G : forall v, network_new a v = Ok n -> valid_network n /\
      exists t0 p0 a0, (t, p) = (t0, p0) /\ address_parse false (Some t0) = Ok (a0, 0) /\ member n (num a0) /\
      network_prefix n <= bits (val a0)).
    { intros v Q. destruct (network_new_block a v (N.to_nat (bits (val a))) (proj2 (is_addr_wf a) W) (new_width a W)) as [Y Z].
      rewrite N2Nat.id in *. destruct (N.lt_ge_cases (bits (val a)) v) as [C|C]; [rewrite Z in Q by auto; discriminate|].
      destruct (Y C) as (n' & A & B' & _ & M & _ & _ & PP & _). rewrite Q in A. injection A as <-.
      split; auto. exists t, p, a. split; auto. split; [apply parse_false; eauto|]. split; auto. lia. }
    destruct p as [p|].
    + cbv zeta. destruct (family_bit_length f <? _); [discriminate|]. cbn [bind fst snd]. apply G.
    + cbn [bind fst snd]. apply G.
Qed.

Lemma address_round_trip before a : Forall addr_arg before -> is_addr a ->
  exists r r' p, address_strs ring0 before = Ok r /\ address_str r (Some a) = Ok (r', Some p) /\
    address_parse false (Some (deref r' p)) = Ok (a, 0) /\
    address_parse true (Some (deref r' p)) = Ok (a, if v4mapped a then 32 else 128).
Proof.
  intros F W. apply is_addr_wf in W. destruct (strs_ok before ring0 ring0_ok F) as (r & E & R).
  exists r. do 2 eexists. split; auto. split; [now apply address_str_some|].
  unfold deref. cbn [r_buffers]. rewrite nth_upd_eq by (destruct R; lia). now apply parse_text.
Qed.

Lemma prefix_digits_width t d v a W : noslash t -> (length (t ++ SLASH :: d) <= 48)%nat ->
  address_parse false (Some t) = Ok (a, 0) -> (is_ipv4 (num a) /\ W = 32 \/ ~ is_ipv4 (num a) /\ W = 128) ->
  decimal d v -> v < 2 ^ 32 \/ 2 ^ 63 <= v ->
  (v <= W -> exists n, network_new_from_string (Some (t ++ SLASH :: d)) = Ok n /\
     valid_network n /\ network_prefix n = v /\ member n (num a)) /\
  (W < v -> network_new_from_string (Some (t ++ SLASH :: d)) = Err 1).
Proof.
  intros NS L P C D V. assert (E : W = bits (val a)).
  { rewrite is_ipv4_mapped in C. change (num a) with (val a) in C. unfold bits.
    destruct (mappedb (val a)); destruct C as [[? ?]|[? ?]]; congruence. }
  rewrite E. now apply prefix_digits.
Qed.

Lemma accepted_member s n : network_new_from_string (Some s) = Ok n -> valid_network n /\
  exists t p a, split_slash (firstn 48 s) = (t, p) /\ address_parse false (Some t) = Ok (a, 0) /\ member n (num a).
Proof.
  intros E. destruct (accepted s n E) as (V & t & p & a & A & B & C & _). split; auto. exists t, p, a. auto.
Qed.

Lemma no_prefix t a : noslash t -> (length t <= 48)%nat ->
  (pton6 t = Some a -> ~ is_ipv4 (num a) -> exists n, network_new_from_string (Some t) = Ok n /\
     valid_network n /\ n_first n = a /\ n_last n = a) /\
  (pton6 t = Some a -> is_ipv4 (num a) -> network_new_from_string (Some t) = Err 1) /\
  (forall x y z w, quad t x y z w -> exists n, network_new_from_string (Some t) = Ok n /\
     valid_network n /\ n_first n = ip4 x y z w /\ n_last n = ip4 x y z w).
Proof.
  intros NS L. split; [|split].
  - intros P M. assert (Q : pton t = Some (a, AF_INET6)) by (unfold pton; now rewrite P).
    destruct (pton_wf _ _ _ Q) as [W _]. apply (prefix_none t a AF_INET6); auto.
    rewrite addr_family_val by auto. rewrite is_ipv4_mapped in M. change (num a) with (val a) in M.
    now destruct (mappedb (val a)).
  - intros P M. assert (Q : pton t = Some (a, AF_INET6)) by (unfold pton; now rewrite P).
    destruct (pton_wf _ _ _ Q) as [W _]. apply (prefix_none t a AF_INET6); auto.
    rewrite addr_family_val by auto. apply is_ipv4_mapped in M. change (num a) with (val a) in M. rewrite M. discriminate.
  - intros x y z w Qd. apply quad_ntop4 in Qd as [O E]. assert (Q : pton t = Some (ip4 x y z w, AF_INET)).
    { unfold pton. rewrite E, pton6_ntop4, pton4_ntop4 by (auto; reflexivity). reflexivity. }
    destruct (pton_wf _ _ _ Q) as [W M]. apply (prefix_none t _ AF_INET); auto.
Qed.
