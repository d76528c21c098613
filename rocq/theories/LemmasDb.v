(** What a written database says. *)
From Coq Require Import NArith ZArith List Bool Arith Lia ZifyBool ZifyNat ZifyN Permutation Sorting.Sorted.
From Verif Require Import Base ModelAddress ModelCountryCode ModelNetwork ModelTree ModelStringPool ModelObjects
  ModelFile ModelWriter ModelDatabase SpecNetwork SpecStringPool SpecObjects SpecTree SpecWriter
  LemmasBase LemmasStringPool LemmasObjects LemmasFile LemmasWriter LemmasWrite LemmasOpen.
Import ListNotations.
Open Scope N_scope.

Section Written.
Variable ctz0 : nat.
Variable held : network -> bool.
Variable key1 key2 : option evp.

(** Everything that is known after a successful write *)
Record written (c : contents) (w : writer) (x : save) (w' : writer) (f : list N) (d : db)
    (ss ss' : list cstr) (e : sections) (offs : list nat) (nets : list network) (rest : list N) : Prop := mkWritten {
  q_before : winv w c ss;
  q_did : did ctz0 held w ss x w' ss' e offs nets;
  q_after : winv w' c ss';
  q_file : f = magic ++ enc_header (file_header e (s_now x) w') ++ out6 e ++ rest;
  q_rest : rest = skipn (length (magic ++ enc_header (file_header e (s_now x) w') ++ out6 e)) (s_old x);
  q_len : flen f < 2 ^ 32;
  q_now : s_now x < 2 ^ 64;
  q_open : db_open f = Ok d;
  q_d : d = opened e (s_now x) w' rest;
  q_string : forall s off, located ss' s off -> db_string d (N.of_nat off) = Ok (Some s)
}.

Lemma writing w c ss x w' f : winv w c ss -> write_to ctz0 held key1 key2 w x = Ok (0%Z, w', f) ->
  flen f < 2 ^ 32 -> s_now x < 2 ^ 64 ->
  exists d ss' e offs nets rest, written c w x w' f d ss ss' e offs nets rest.
Proof.
  intros I E L T. destruct (write_spec _ _ _ _ w c ss x 0%Z w' f I E) as [(_ & X & _)|(_ & ss' & e & offs & nets & D & I' & F)]; [discriminate|].
  specialize (F eq_refl). unfold overwrite in F. rewrite <- !app_assoc in F.
  set (rest := skipn _ (s_old x)) in F. exists (opened e (s_now x) w' rest), ss', e, offs, nets, rest.
  assert (B : forall s off, located ss' s off -> N.of_nat off < 2 ^ 32).
  { intros s off Q. pose proof (located_bound e (w_pool w') ss' (k_pool _ _ _ _ _ _ _ _ _ _ D) (k_data _ _ _ _ _ _ _ _ _ _ D) s off Q).
    pose proof (o6_bound e (s_now x) w' rest (i_sig1 _ _ _ I') (i_sig2 _ _ _ I')) as O. rewrite <- F in O. lia. }
  constructor; auto.
  - rewrite F. apply open_written; auto; try apply I'; try (eapply B; apply I'). now rewrite <- F.
  - intros s off Q. apply string_written with (p := w_pool w') (ss := ss'); auto; try apply I'; try apply D.
Qed.

(** ** ASes *)
Lemma fetch_as_spec c w x w' f d ss ss' e offs nets rest i a :
  written c w x w' f d ss ss' e offs nets rest -> nth_error (ol_elems (w_as w')) i = Some a ->
  fetch_as d (N.of_nat i) = Ok (mkAs 0 (as_number a) (Some (as_string a))).
Proof.
  intros Q E. pose proof (q_did _ _ _ _ _ _ _ _ _ _ _ _ Q) as D.
  pose proof (q_after _ _ _ _ _ _ _ _ _ _ _ _ Q) as I'.
  assert (O : exists off, nth_error offs i = Some off /\ located ss' (as_string a) off).
  { pose proof (k_offs _ _ _ _ _ _ _ _ _ _ D) as F. clear -F E. revert i E.
    induction F as [|a' off l os H F IH]; intros [|i] E; try discriminate; cbn [nth_error] in *; [|eauto].
    injection E as <-. eauto. }
  destruct O as (off & O & L).
  assert (R : nth_error (e_ases e) i = Some (as_number a, N.of_nat off)).
  { rewrite (k_ases _ _ _ _ _ _ _ _ _ _ D). unfold as_recs.
    assert (C : nth_error (combine (ol_elems (w_as w')) offs) i = Some (a, off)).
    { clear -E O. revert offs i E O. induction (ol_elems (w_as w')) as [|y l IH]; intros [|o offs] [|i] E O; try discriminate; cbn in *; auto.
      now injection E as ->; injection O as ->. }
    now rewrite (map_nth_error _ i _ C). }
  rewrite (q_d _ _ _ _ _ _ _ _ _ _ _ _ Q). 
  assert (Len : (i < length (e_ases e))%nat) by (apply nth_error_Some; congruence).
  pose proof (q_len _ _ _ _ _ _ _ _ _ _ _ _ Q) as QL. rewrite (q_file _ _ _ _ _ _ _ _ _ _ _ _ Q) in QL.
  destruct (read_as_rec e (s_now x) w' rest (i_sig1 _ _ _ I') (i_sig2 _ _ _ I') QL i _ R) as [R1 R2].
  unfold fetch_as. 
  change (snd (d_as (opened e (s_now x) w' rest))) with (N.of_nat (length (e_ases e))).
  replace (_ <=? _) with false by lia.
  change (d_file (opened e (s_now x) w' rest)) with (magic ++ enc_header (file_header e (s_now x) w') ++ out6 e ++ rest).
  rewrite R1, R2. cbn [bind]. unfold enc_as_rec, enc_as. cbn [fst snd].
  rewrite field_here. rewrite field_to_be by lia. cbn [Nat.sub]. rewrite field_end.
  change (256 ^ N.of_nat 4) with (2 ^ 32).
  assert (Fi : as_fine a).
  { pose proof (i_as_fine _ _ _ I') as F. rewrite Forall_forall in F. apply F. eapply nth_error_In; eauto. }
  destruct Fi as [Fi _]. rewrite (N.mod_small (as_number a)) by auto.
  assert (Bo : N.of_nat off < 2 ^ 32).
  { pose proof (located_bound e (w_pool w') ss' (k_pool _ _ _ _ _ _ _ _ _ _ D) (k_data _ _ _ _ _ _ _ _ _ _ D) _ _ L).
    pose proof (o6_bound e (s_now x) w' rest (i_sig1 _ _ _ I') (i_sig2 _ _ _ I')) as O6. lia. }
  rewrite (N.mod_small (N.of_nat off)) by auto.
  pose proof (q_string _ _ _ _ _ _ _ _ _ _ _ _ Q _ _ L) as St. rewrite (q_d _ _ _ _ _ _ _ _ _ _ _ _ Q) in St. rewrite St.
  reflexivity.
Qed.

Lemma count_as_spec c w x w' f d ss ss' e offs nets rest :
  written c w x w' f d ss ss' e offs nets rest -> count_as d = N.of_nat (length (ol_elems (w_as w'))).
Proof.
  intros Q. rewrite (q_d _ _ _ _ _ _ _ _ _ _ _ _ Q). unfold count_as. cbn [d_as opened snd].
  pose proof (q_did _ _ _ _ _ _ _ _ _ _ _ _ Q) as D. rewrite (k_ases _ _ _ _ _ _ _ _ _ _ D). unfold as_recs.
  rewrite map_length, combine_length. pose proof (Forall2_len _ _ _ (k_offs _ _ _ _ _ _ _ _ _ _ D)). lia.
Qed.

Lemma ascending_nth {A} (key : A -> N) l i j x y : ascending key l -> (i < j)%nat ->
  nth_error l i = Some x -> nth_error l j = Some y -> key x < key y.
Proof.
  intros H. revert i j. induction H as [|z l H IH F]; intros [|i] [|j] L E1 E2; try discriminate; try lia; cbn [nth_error] in *.
  - injection E1 as <-. rewrite Forall_forall in F. apply F. eapply nth_error_In; eauto.
  - apply (IH i j); auto; lia.
Qed.

(** Binary search in a sorted table *)
Lemma get_as_loop_spec d l number :
  (forall i a, nth_error l i = Some a -> exists r, fetch_as d (N.of_nat i) = Ok r /\ as_number r = as_number a) ->
  ascending as_number l ->
  forall fuel lo hi, (0 <= lo)%Z -> (hi < Z.of_nat (length l))%Z -> (hi - lo + 1 <= Z.of_nat fuel)%Z ->
  (forall i a, nth_error l i = Some a -> as_number a = number -> (lo <= Z.of_nat i <= hi)%Z) ->
  match get_as_loop d number lo hi fuel with
  | Ok r => exists i a, nth_error l i = Some a /\ as_number a = number /\ fetch_as d (N.of_nat i) = Ok r
  | Err k => k = 1%Z /\ ~ In number (map as_number l)
  | _ => False
  end.
Proof.
  intros F Q. induction fuel as [|fuel IH]; intros lo hi L H M I; cbn [get_as_loop].
  - destruct (Z.leb_spec lo hi); [lia|]. split; auto. intros N. apply in_map_iff in N as (a & N1 & N2).
    apply In_nth_error in N2 as [i N2]. specialize (I i a N2 N1). lia.
  - destruct (Z.leb_spec lo hi) as [Le|Gt].
    2:{ split; auto. intros N. apply in_map_iff in N as (a & N1 & N2).
        apply In_nth_error in N2 as [i N2]. specialize (I i a N2 N1). lia. }
    set (m := ((lo + hi) / 2)%Z). assert (Mb : (lo <= m <= hi)%Z).
    { subst m. split; [apply Z.div_le_lower_bound; lia|apply Z.div_le_upper_bound; lia]. }
    assert (X : exists a, nth_error l (Z.to_nat m) = Some a).
    { destruct (nth_error l (Z.to_nat m)) eqn:E; [eauto|]. apply nth_error_None in E. lia. }
    destruct X as [a X]. destruct (F _ _ X) as (r & R1 & R2).
    replace (Z.to_N m) with (N.of_nat (Z.to_nat m)) by lia. rewrite R1. cbn [bind]. rewrite R2.
    destruct (N.eqb_spec (as_number a) number) as [E|E]; [eauto|].
    destruct (N.ltb_spec (as_number a) number) as [E'|E'].
    + apply IH; try lia. intros j b J1 J2. pose proof (I j b J1 J2).
      destruct (Z.le_gt_cases (Z.of_nat j) m); [|lia]. exfalso.
      destruct (Nat.eq_dec j (Z.to_nat m)) as [->|Nj]; [congruence|].
      pose proof (ascending_nth as_number l j (Z.to_nat m) b a Q ltac:(lia) J1 X). lia.
    + apply IH; try lia. intros j b J1 J2. pose proof (I j b J1 J2).
      destruct (Z.le_gt_cases m (Z.of_nat j)); [|lia]. exfalso.
      destruct (Nat.eq_dec j (Z.to_nat m)) as [->|Nj]; [congruence|].
      pose proof (ascending_nth as_number l (Z.to_nat m) j a b Q ltac:(lia) X J1). lia.
Qed.

Lemma as_table c w x w' f d ss ss' e offs nets rest :
  written c w x w' f d ss ss' e offs nets rest ->
  ascending as_number (ol_elems (w_as w')) /\ Permutation (map the_as (ol_elems (w_as w'))) (ases c).
Proof.
  intros Q. pose proof (q_did _ _ _ _ _ _ _ _ _ _ _ _ Q) as D. split.
  - rewrite (k_as _ _ _ _ _ _ _ _ _ _ D).
    apply (sort_ok as_cmp as_number (fun _ => True) as_cmp_key). apply (i_as_ok _ _ _ (q_before _ _ _ _ _ _ _ _ _ _ _ _ Q)).
  - apply (q_after _ _ _ _ _ _ _ _ _ _ _ _ Q).
Qed.

Definition name_or_empty (s : option cstr) : cstr := match s with Some s => s | None => [] end.

Lemma get_as_spec c w x w' f d ss ss' e offs nets rest :
  written c w x w' f d ss ss' e offs nets rest ->
  (forall a, In a (ases c) -> exists r, get_as d (the_number a) = Ok r /\ as_number r = the_number a /\
     as_name r = Some (name_or_empty (the_name a))) /\
  (forall n, ~ In n (map the_number (ases c)) -> get_as d n = Err 1).
Proof.
  intros Q. destruct (as_table _ _ _ _ _ _ _ _ _ _ _ _ Q) as [A Pm].
  set (l := ol_elems (w_as w')) in *.
  assert (G : forall n, match get_as d n with
    | Ok r => exists i a, nth_error l i = Some a /\ as_number a = n /\ fetch_as d (N.of_nat i) = Ok r
    | Err k => k = 1%Z /\ ~ In n (map as_number l)
    | _ => False end).
  { intros n. unfold get_as. pose proof (count_as_spec _ _ _ _ _ _ _ _ _ _ _ _ Q) as C. unfold count_as in C. rewrite C. fold l.
    rewrite Nat2N.id. apply get_as_loop_spec; auto; try lia.
    - intros i a E. eexists. split; [eapply fetch_as_spec; eauto|reflexivity].
    - intros i a E _. assert (i < length l)%nat by (apply nth_error_Some; congruence). lia. }
  assert (M : map the_number (map the_as l) = map as_number l) by (rewrite map_map; apply map_ext; reflexivity).
  split.
  - intros a Ia. apply (Permutation_in _ (Permutation_sym Pm)) in Ia. apply in_map_iff in Ia as (b & <- & Ib).
    specialize (G (as_number b)). cbn [the_as the_number the_name]. destruct (get_as d (as_number b)) as [r|k| |]; try easy.
    + destruct G as (i & a & E1 & E2 & E3). exists r. split; auto.
      pose proof (fetch_as_spec _ _ _ _ _ _ _ _ _ _ _ _ i a Q E1) as E4. rewrite E3 in E4. injection E4 as ->.
      cbn [as_number as_name]. split; auto.
      assert (a = b); [|subst; reflexivity].
      apply In_nth_error in Ib as [j J]. destruct (Nat.lt_trichotomy i j) as [Lt|[->|Lt]].
      * pose proof (ascending_nth as_number l i j a b A Lt E1 J). lia.
      * congruence.
      * pose proof (ascending_nth as_number l j i b a A Lt J E1). lia.
    + destruct G as [_ G]. exfalso. apply G. now apply in_map.
  - intros n N. specialize (G n). destruct (get_as d n) as [r|k| |]; try easy.
    + destruct G as (i & a & E1 & E2 & _). exfalso. apply N. apply nth_error_In in E1.
      apply (Permutation_in _ (Permutation_map the_number Pm)). rewrite M, <- E2. now apply in_map.
    + destruct G as [-> _]. reflexivity.
Qed.

Lemma metadata c w x w' f d ss ss' e offs nets rest :
  written c w x w' f d ss ss' e offs nets rest ->
  get_vendor d = Ok (Some (vendor c)) /\ get_description d = Ok (Some (description c)) /\
  get_license d = Ok (Some (license c)) /\ d_created_at d = s_now x /\ count_as d = N.of_nat (length (ases c)).
Proof.
  intros Q. pose proof (q_after _ _ _ _ _ _ _ _ _ _ _ _ Q) as I'. pose proof (q_string _ _ _ _ _ _ _ _ _ _ _ _ Q) as St.
  pose proof (q_d _ _ _ _ _ _ _ _ _ _ _ _ Q) as Ed.
  unfold get_vendor, get_description, get_license. split; [|split; [|split; [|split]]].
  - replace (d_vendor d) with (N.of_nat (w_vendor w')) by now rewrite Ed. apply St, I'.
  - replace (d_description d) with (N.of_nat (w_description w')) by now rewrite Ed. apply St, I'.
  - replace (d_license d) with (N.of_nat (w_license w')) by now rewrite Ed. apply St, I'.
  - now rewrite Ed.
  - rewrite (count_as_spec _ _ _ _ _ _ _ _ _ _ _ _ Q). f_equal.
    now rewrite <- (Permutation_length (i_as _ _ _ I')), map_length.
Qed.

(** Sections *)
Lemma sections_layout c w x w' f d ss ss' e offs nets rest :
  written c w x w' f d ss ss' e offs nets rest ->
  let as_end := fst (d_as d) + 8 * snd (d_as d) in
  let tree_end := fst (d_tree d) + 12 * snd (d_tree d) in
  let data_end := fst (d_data d) + 12 * snd (d_data d) in
  let countries_end := fst (d_countries d) + 8 * snd (d_countries d) in
  fst (d_as d) mod 4096 = 0 /\ fst (d_tree d) mod 4096 = 0 /\ fst (d_data d) mod 4096 = 0 /\
  fst (d_countries d) mod 4096 = 0 /\ fst (d_pool d) mod 4096 = 0 /\
  8 + 4192 <= fst (d_as d) /\ as_end <= fst (d_tree d) /\ tree_end <= fst (d_data d) /\
  data_end <= fst (d_countries d) /\ countries_end <= fst (d_pool d) /\
  fst (d_pool d) + snd (d_pool d) <= N.of_nat (length f).
Proof.
  intros Q. cbv zeta. pose proof (q_after _ _ _ _ _ _ _ _ _ _ _ _ Q) as I'.
  pose proof (o6_bound e (s_now x) w' rest (i_sig1 _ _ _ I') (i_sig2 _ _ _ I')) as O6.
  rewrite <- (q_file _ _ _ _ _ _ _ _ _ _ _ _ Q) in O6.
  rewrite (q_d _ _ _ _ _ _ _ _ _ _ _ _ Q). cbn [d_as d_tree d_data d_countries d_pool opened fst snd].
  change 4096 with PAGE_SIZE. unfold out1, out2, out3, out4, out5. rewrite !align_mod.
  fold (out1 e). fold (out2 e). fold (out3 e). fold (out4 e). fold (out5 e).
  split; auto. split; auto. split; auto. split; auto. split; auto.
  split; [apply (o1_bound e)|]. split; [apply o2_bound|]. split; [apply o3_bound|]. split; [apply o4_bound|]. split; [apply o5_bound|].
  exact O6.
Qed.
End Written.
