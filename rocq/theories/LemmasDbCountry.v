(** Countries in a written database. *)
From Coq Require Import NArith ZArith List Bool Arith Lia ZifyBool ZifyNat ZifyN Permutation Sorting.Sorted.
From Verif Require Import Base ModelAddress ModelCountryCode ModelNetwork ModelTree ModelStringPool ModelObjects
  ModelFile ModelWriter ModelDatabase SpecNetwork SpecStringPool SpecObjects SpecTree SpecWriter
  LemmasBase LemmasStringPool LemmasObjects LemmasFile LemmasWriter LemmasWrite LemmasOpen LemmasDb.
Import ListNotations.
Open Scope N_scope.

Lemma Forall2_nth {A B} (R : A -> B -> Prop) l m i y : Forall2 R l m -> nth_error m i = Some y ->
  exists x, nth_error l i = Some x /\ R x y.
Proof.
  intros F. revert i. induction F as [|a b l m H F IH]; intros [|i] E; try discriminate; cbn [nth_error] in *; eauto.
  injection E as <-. eauto.
Qed.
Lemma Forall2_nth_l {A B} (R : A -> B -> Prop) l m i x : Forall2 R l m -> nth_error l i = Some x ->
  exists y, nth_error m i = Some y /\ R x y.
Proof.
  intros F. revert i. induction F as [|a b l m H F IH]; intros [|i] E; try discriminate; cbn [nth_error] in *; eauto.
  injection E as <-. eauto.
Qed.

Definition block_continent (b : cc2) : option cstr := if fst b =? 0 then None else Some (cc_str b).

Lemma blocks_continents l m : Forall2 is_country l m -> forall b,
  map block_continent (blocks b l) = continents_read (block_continent b) m.
Proof.
  induction 1 as [|c x l m R F IH]; intros b; cbn [blocks map continents_read]; auto.
  destruct R as (_ & _ & R & _). destruct (the_continent x) as [s|].
  - destruct R as [-> [R _]]. replace (fst (c_continent c) =? 0) with false by lia. rewrite IH. unfold block_continent.
    now replace (fst (c_continent c) =? 0) with false by lia.
  - replace (fst (c_continent c) =? 0) with true by lia. now rewrite IH.
Qed.

Section Written.
Variable ctz0 : nat.
Variable held : network -> bool.
Variable key1 key2 : option evp.
Notation written := (written ctz0 held).

Lemma fetch_country_spec c w x w' f d ss ss' e offs nets rest i z :
  written c w x w' f d ss ss' e offs nets rest -> nth_error (countries c) i = Some z ->
  exists y, fetch_country d (N.of_nat i) = Ok y /\ cc_str (c_code y) = the_code z /\ two_letters (c_code y) /\
    nth_error (continents_read (block_continent (s_block0 x)) (countries c)) i = Some (country_get_continent_code y) /\
    country_get_name y = Ok (Some (name_or_empty (the_country_name z))).
Proof.
  intros Q E. pose proof (q_did _ _ _ _ _ _ _ _ _ _ _ _ _ _ Q) as D.
  pose proof (q_before _ _ _ _ _ _ _ _ _ _ _ _ _ _ Q) as I.
  pose proof (q_after _ _ _ _ _ _ _ _ _ _ _ _ _ _ Q) as I'.
  destruct (Forall2_nth _ _ _ _ _ (i_countries _ _ _ I) E) as (y & Y & Ry).
  destruct (Forall2_nth_l _ _ _ _ _ (k_names _ _ _ _ _ _ _ _ _ _ D) Y) as ([[code block] name] & R & N). cbn [snd] in N.
  assert (Ec : code = c_code y).
  { pose proof (k_codes _ _ _ _ _ _ _ _ _ _ D) as C. apply (f_equal (fun l => nth_error l i)) in C.
    rewrite (map_nth_error _ i _ R), (map_nth_error _ i _ Y) in C. now injection C. }
  assert (Eb : nth_error (blocks (s_block0 x) (ol_elems (w_countries w))) i = Some block).
  { rewrite <- (k_blocks _ _ _ _ _ _ _ _ _ _ D). now rewrite (map_nth_error _ i _ R). }
  assert (Len : (i < length (e_countries e))%nat) by (apply nth_error_Some; intros Z; pose proof (eq_trans (eq_sym R) Z); discriminate).
  pose proof (q_len _ _ _ _ _ _ _ _ _ _ _ _ _ _ Q) as QL. rewrite (q_file _ _ _ _ _ _ _ _ _ _ _ _ _ _ Q) in QL.
  destruct (read_country_rec e (s_now x) w' rest (i_sig1 _ _ _ I') (i_sig2 _ _ _ I') QL i _ R) as [R1 R2].
  pose proof (q_string _ _ _ _ _ _ _ _ _ _ _ _ _ _ Q) as St.
  rewrite (q_d _ _ _ _ _ _ _ _ _ _ _ _ _ _ Q) in *.
  unfold fetch_country.
  change (snd (d_countries (opened e (s_now x) w' rest))) with (N.of_nat (length (e_countries e))).
  replace (_ <=? _) with false by lia.
  change (d_file (opened e (s_now x) w' rest)) with (magic ++ enc_header (file_header e (s_now x) w') ++ out6 e ++ rest).
  rewrite R1, R2. cbn [bind]. unfold country_from_database, enc_country_rec, enc_country. cbn [fst snd app nth].
  assert (Valid : cc_is_valid (Some (cc_str code)) = true).
  { pose proof (i_valid _ _ _ I) as V. rewrite Forall_forall in V. specialize (V z (nth_error_In _ _ E)).
    destruct Ry as (_ & Ry & _). now rewrite Ec, Ry. }
  replace (fst code, snd code) with code by now destruct code.
  destruct (country_new_spec 0 _ Valid) as (y1 & -> & Ok1 & C1 & I1 & K1 & N1). cbn [bind].
  change (fst code :: snd code :: fst block :: snd block :: to_be 4 name) with ([fst code; snd code; fst block; snd block] ++ to_be 4 name).
  rewrite field_skip by (cbn [length]; lia). cbn [length Nat.sub]. rewrite field_end. change (256 ^ N.of_nat 4) with (2 ^ 32).
  assert (X : exists off, name = N.of_nat off /\ located ss' (name_or_empty (the_country_name z)) off).
  { destruct Ry as (_ & _ & _ & Ry). destruct (c_name y) as [|s|]; [|destruct Ry as [-> _]; exact N|easy].
    rewrite Ry. cbn [name_or_empty]. exists 0%nat. split; auto. destruct (i_first _ _ _ I') as [tl ->]. exists [], tl. split; reflexivity. }
  destruct X as (off & -> & L).
  assert (Bo : N.of_nat off < 2 ^ 32).
  { pose proof (located_bound e (w_pool w') ss' (k_pool _ _ _ _ _ _ _ _ _ _ D) (k_data _ _ _ _ _ _ _ _ _ _ D) _ _ L) as B1.
    pose proof (o6_bound e (s_now x) w' rest (i_sig1 _ _ _ I') (i_sig2 _ _ _ I')) as O6. clear -B1 O6 QL. lia. }
  rewrite (N.mod_small (N.of_nat off)) by auto. rewrite (St _ _ L). cbn [bind].
  assert (T : nth_error (continents_read (block_continent (s_block0 x)) (countries c)) i = Some (block_continent block)).
  { rewrite <- (blocks_continents _ _ (i_countries _ _ _ I)). now rewrite (map_nth_error _ i _ Eb). }
  rewrite T. destruct (fst block =? 0) eqn:B0.
  - unfold country_set_name. rewrite N1. eexists. split; [reflexivity|].
    cbn [c_code c_continent c_name country_get_name]. split; [destruct Ry as (_ & Ry & _); congruence|].
    split; [exact Ok1|]. split; [|reflexivity]. unfold country_get_continent_code, block_continent. cbn [c_continent].
    now rewrite K1, B0.
  - unfold country_set_name. cbn [c_name c_id c_code c_continent]. rewrite N1. eexists. split; [reflexivity|].
    cbn [c_code c_continent c_name country_get_name]. split; [destruct Ry as (_ & Ry & _); congruence|].
    split; [exact Ok1|]. split; [|reflexivity]. unfold country_get_continent_code, block_continent. cbn [c_continent fst].
    rewrite B0. now destruct block.
Qed.

Lemma count_countries_spec c w x w' f d ss ss' e offs nets rest :
  written c w x w' f d ss ss' e offs nets rest -> snd (d_countries d) = N.of_nat (length (countries c)).
Proof.
  intros Q. pose proof (q_did _ _ _ _ _ _ _ _ _ _ _ _ _ _ Q) as D.
  rewrite (q_d _ _ _ _ _ _ _ _ _ _ _ _ _ _ Q). cbn [d_countries opened snd].
  f_equal. etransitivity; [symmetry; apply (Forall2_len _ _ _ (k_names _ _ _ _ _ _ _ _ _ _ D))|].
  apply (Forall2_len _ _ _ (i_countries _ _ _ (q_before _ _ _ _ _ _ _ _ _ _ _ _ _ _ Q))).
Qed.

Lemma strcmp_two a b c d : strcmp [a; b] [c; d] = if (a <? c) || ((a =? c) && (b <? d)) then (-1)%Z else if (a =? c) && (b =? d) then 0%Z else 1%Z.
Proof.
  cbn [strcmp]. destruct (N.ltb_spec a c), (N.ltb_spec c a), (N.eqb_spec a c), (N.ltb_spec b d), (N.ltb_spec d b), (N.eqb_spec b d); try lia; reflexivity.
Qed.

Lemma sorted_nth {A} (R : A -> A -> Prop) l i j x y : StronglySorted R l -> (i < j)%nat ->
  nth_error l i = Some x -> nth_error l j = Some y -> R x y.
Proof.
  intros H. revert i j. induction H as [|z l H IH F]; intros [|i] [|j] L E1 E2; try discriminate; try lia; cbn [nth_error] in *.
  - injection E1 as <-. rewrite Forall_forall in F. apply F. eapply nth_error_In; eauto.
  - apply (IH i j); auto; lia.
Qed.

Lemma get_country_loop_spec d l s :
  (forall i x, nth_error l i = Some x -> exists y, fetch_country d (N.of_nat i) = Ok y /\ cc_str (c_code y) = the_code x) ->
  (forall x, In x l -> exists a b, the_code x = [a; b]) -> (exists a b, s = [a; b]) ->
  StronglySorted (fun x y => code_before (the_code x) (the_code y)) l ->
  forall fuel lo hi, (0 <= lo)%Z -> (hi < Z.of_nat (length l))%Z -> (hi - lo + 1 <= Z.of_nat fuel)%Z ->
  (forall i x, nth_error l i = Some x -> the_code x = s -> (lo <= Z.of_nat i <= hi)%Z) ->
  match get_country_loop d s lo hi fuel with
  | Ok (Some y) => exists i x, nth_error l i = Some x /\ the_code x = s /\ fetch_country d (N.of_nat i) = Ok y
  | Ok None => ~ In s (map the_code l)
  | _ => False
  end.
Proof.
  intros F T [a [b ->]] Q. induction fuel as [|fuel IH]; intros lo hi L H M I; cbn [get_country_loop].
  - destruct (Z.leb_spec lo hi); [lia|]. intros N. apply in_map_iff in N as (x & N1 & N2).
    apply In_nth_error in N2 as [i N2]. specialize (I i x N2 N1). lia.
  - destruct (Z.leb_spec lo hi) as [Le|Gt].
    2:{ intros N. apply in_map_iff in N as (x & N1 & N2).
        apply In_nth_error in N2 as [i N2]. specialize (I i x N2 N1). lia. }
    set (m := ((lo + hi) / 2)%Z). assert (Mb : (lo <= m <= hi)%Z).
    { subst m. split; [apply Z.div_le_lower_bound; lia|apply Z.div_le_upper_bound; lia]. }
    assert (X : exists x, nth_error l (Z.to_nat m) = Some x).
    { destruct (nth_error l (Z.to_nat m)) eqn:E; [eauto|]. apply nth_error_None in E. lia. }
    destruct X as [x X]. destruct (F _ _ X) as (y & R1 & R2).
    replace (Z.to_N m) with (N.of_nat (Z.to_nat m)) by lia. rewrite R1. cbn [bind]. rewrite R2.
    destruct (T x (nth_error_In _ _ X)) as (c & e & Ex). rewrite Ex, strcmp_two.
    destruct ((a <? c) || (a =? c) && (b <? e)) eqn:C1; [|destruct ((a =? c) && (b =? e)) eqn:C2].
    + cbn [Z.eqb Z.ltb Z.compare]. apply IH; try lia. intros j z J1 J2. pose proof (I j z J1 J2).
      destruct (Z.le_gt_cases m (Z.of_nat j)); [|lia]. exfalso.
      destruct (Nat.eq_dec j (Z.to_nat m)) as [->|Nj].
      * rewrite X in J1. injection J1 as <-. rewrite Ex in J2. injection J2 as -> ->. lia.
      * pose proof (sorted_nth _ l (Z.to_nat m) j x z Q ltac:(lia) X J1) as B. cbv beta in B. rewrite J2, Ex in B. cbn [code_before] in B. lia.
    + cbn [Z.eqb]. exists (Z.to_nat m), x. split; auto. split; auto. rewrite Ex. f_equal; [lia|]. f_equal. lia.
    + cbn [Z.eqb Z.ltb Z.compare]. apply IH; try lia. intros j z J1 J2. pose proof (I j z J1 J2).
      destruct (Z.le_gt_cases (Z.of_nat j) m); [|lia]. exfalso.
      destruct (Nat.eq_dec j (Z.to_nat m)) as [->|Nj].
      * rewrite X in J1. injection J1 as <-. rewrite Ex in J2. injection J2 as -> ->. lia.
      * pose proof (sorted_nth _ l j (Z.to_nat m) z x Q ltac:(lia) J1 X) as B. cbv beta in B. rewrite J2, Ex in B. cbn [code_before] in B. lia.
Qed.

(** In any order *)
Lemma get_country_loop_only d l s :
  (forall i x, nth_error l i = Some x -> exists y, fetch_country d (N.of_nat i) = Ok y /\ cc_str (c_code y) = the_code x) ->
  (forall x, In x l -> exists a b, the_code x = [a; b]) -> (exists a b, s = [a; b]) ->
  forall fuel lo hi, (0 <= lo)%Z -> (hi < Z.of_nat (length l))%Z -> (hi - lo + 1 <= Z.of_nat fuel)%Z ->
  match get_country_loop d s lo hi fuel with
  | Ok (Some y) => exists i x, nth_error l i = Some x /\ the_code x = s /\ fetch_country d (N.of_nat i) = Ok y
  | Ok None => True
  | _ => False
  end.
Proof.
  intros F T [a [b ->]]. induction fuel as [|fuel IH]; intros lo hi L H M; cbn [get_country_loop].
  - destruct (Z.leb_spec lo hi); [lia|]. auto.
  - destruct (Z.leb_spec lo hi) as [Le|Gt]; [|auto].
    set (m := ((lo + hi) / 2)%Z). assert (Mb : (lo <= m <= hi)%Z).
    { subst m. split; [apply Z.div_le_lower_bound; lia|apply Z.div_le_upper_bound; lia]. }
    assert (X : exists x, nth_error l (Z.to_nat m) = Some x).
    { destruct (nth_error l (Z.to_nat m)) eqn:E; [eauto|]. apply nth_error_None in E. lia. }
    destruct X as [x X]. destruct (F _ _ X) as (y & R1 & R2).
    replace (Z.to_N m) with (N.of_nat (Z.to_nat m)) by lia. rewrite R1. cbn [bind]. rewrite R2.
    destruct (T x (nth_error_In _ _ X)) as (c & e & Ex). rewrite Ex, strcmp_two.
    destruct ((a <? c) || (a =? c) && (b <? e)) eqn:C1; [|destruct ((a =? c) && (b =? e)) eqn:C2].
    + cbn [Z.eqb Z.ltb Z.compare]. apply IH; lia.
    + cbn [Z.eqb]. exists (Z.to_nat m), x. split; auto. split; auto. rewrite Ex. f_equal; [lia|]. f_equal. lia.
    + cbn [Z.eqb Z.ltb Z.compare]. apply IH; lia.
Qed.

Lemma get_country_only c w x w' f d ss ss' e offs nets rest s :
  written c w x w' f d ss ss' e offs nets rest ->
  country_code (Some s) <> None ->
  get_country d (Some s) = Ok None \/
  exists z y, In z (countries c) /\ the_code z = s /\ get_country d (Some s) = Ok (Some y) /\
    cc_str (c_code y) = s /\ country_get_name y = Ok (Some (name_or_empty (the_country_name z))).
Proof.
  intros Q Hs. rewrite country_code_valid in Hs. destruct (cc_is_valid (Some s)) eqn:Vs; [|congruence].
  pose proof (i_valid _ _ _ (q_before _ _ _ _ _ _ _ _ _ _ _ _ _ _ Q)) as V. rewrite Forall_forall in V.
  unfold get_country. rewrite Vs. cbn [negb]. rewrite (count_countries_spec _ _ _ _ _ _ _ _ _ _ _ _ Q), Nat2N.id.
  pose proof (get_country_loop_only d (countries c) s) as G.
  specialize (G ltac:(intros i z E; destruct (fetch_country_spec _ _ _ _ _ _ _ _ _ _ _ _ i z Q E) as (y & Y1 & Y2 & _); eauto)).
  specialize (G ltac:(intros z Hz; apply V, cc_valid_two in Hz as (a & b & -> & _); eauto)).
  specialize (G ltac:(apply cc_valid_two in Vs as (a & b & -> & _); eauto)).
  specialize (G (length (countries c)) 0%Z (Z.of_N (N.of_nat (length (countries c))) - 1)%Z ltac:(lia) ltac:(lia) ltac:(lia)).
  destruct (get_country_loop _ _ _ _ _) as [[y|]| | |]; try easy; [right|now left].
  destruct G as (i & z & E1 & E2 & E3). exists z, y. split; [eapply nth_error_In; eauto|]. split; auto. split; auto.
  destruct (fetch_country_spec _ _ _ _ _ _ _ _ _ _ _ _ i z Q E1) as (y' & Y1 & Y2 & _ & _ & Y3). rewrite E3 in Y1. injection Y1 as <-.
  split; congruence.
Qed.

Lemma get_country_spec c w x w' f d ss ss' e offs nets rest :
  written c w x w' f d ss ss' e offs nets rest -> countries_in_order c ->
  (forall z, In z (countries c) -> exists y, get_country d (Some (the_code z)) = Ok (Some y) /\
     cc_str (c_code y) = the_code z /\ country_get_name y = Ok (Some (name_or_empty (the_country_name z)))) /\
  (forall s, country_code (Some s) <> None -> ~ In s (map the_code (countries c)) -> get_country d (Some s) = Ok None) /\
  (forall s, country_code s = None -> get_country d s = Err 1).
Proof.
  intros Q O. pose proof (q_before _ _ _ _ _ _ _ _ _ _ _ _ _ _ Q) as I.
  assert (V : forall z, In z (countries c) -> cc_is_valid (Some (the_code z)) = true).
  { pose proof (i_valid _ _ _ I) as V. now rewrite Forall_forall in V. }
  assert (G : forall s, cc_is_valid (Some s) = true -> match get_country d (Some s) with
    | Ok (Some y) => exists i z, nth_error (countries c) i = Some z /\ the_code z = s /\ fetch_country d (N.of_nat i) = Ok y
    | Ok None => ~ In s (map the_code (countries c))
    | _ => False end).
  { intros s Vs. unfold get_country. rewrite Vs. cbn [negb]. rewrite (count_countries_spec _ _ _ _ _ _ _ _ _ _ _ _ Q), Nat2N.id.
    apply get_country_loop_spec; auto; try lia.
    - intros i z E. destruct (fetch_country_spec _ _ _ _ _ _ _ _ _ _ _ _ i z Q E) as (y & Y1 & Y2 & _). eauto.
    - intros z Hz. apply V, cc_valid_two in Hz as (a & b & -> & _). eauto.
    - apply cc_valid_two in Vs as (a & b & -> & _). eauto.
    - intros i z E _. assert (i < length (countries c))%nat by (apply nth_error_Some; congruence). lia. }
  split; [|split].
  - intros z Hz. specialize (G _ (V z Hz)). destruct (get_country d (Some (the_code z))) as [[y|]| | |]; try easy.
    + destruct G as (i & z' & E1 & E2 & E3). exists y. split; auto.
      destruct (fetch_country_spec _ _ _ _ _ _ _ _ _ _ _ _ i z' Q E1) as (y' & Y1 & Y2 & _ & _ & Y3). rewrite E3 in Y1. injection Y1 as <-.
      assert (z' = z); [|subst; auto]. apply In_nth_error in Hz as [j J].
      destruct (Nat.lt_trichotomy i j) as [Lt|[->|Lt]]; [| |].
      * pose proof (sorted_nth _ _ i j z' z O Lt E1 J) as B. cbv beta in B. rewrite E2 in B.
        exfalso. clear -B. unfold code_before in B. destruct (the_code z) as [|? [|? [|]]]; lia.
      * congruence.
      * pose proof (sorted_nth _ _ j i z z' O Lt J E1) as B. cbv beta in B. rewrite E2 in B.
        exfalso. clear -B. unfold code_before in B. destruct (the_code z) as [|? [|? [|]]]; lia.
    + exfalso. apply G. now apply in_map.
  - intros s Hs N. rewrite country_code_valid in Hs. destruct (cc_is_valid (Some s)) eqn:Vs; [|congruence].
    specialize (G s Vs). destruct (get_country d (Some s)) as [[y|]| | |]; try easy.
    destruct G as (i & z & E1 & E2 & _). exfalso. apply N. rewrite <- E2. apply in_map. eapply nth_error_In; eauto.
  - intros s Hs. rewrite country_code_valid in Hs. unfold get_country. destruct s as [s|]; [|reflexivity].
    destruct (cc_is_valid (Some s)) eqn:Vs; [discriminate|]. reflexivity.
Qed.
End Written.
