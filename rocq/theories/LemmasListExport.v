(** What the export command writes for databases that were written. *)
From Coq Require Import String.
From Coq Require Import NArith ZArith List Bool Arith Lia ZifyBool ZifyNat ZifyN Sorting.Sorted.
From Verif Require Import Base LemmasBase ModelAddress ModelCountryCode ModelNetwork LemmasNetwork ModelNetworkList SpecNetworkList
  ModelTree SpecTree LemmasSpecNetwork ModelStringPool ModelObjects ModelText SpecText LemmasText
  ModelFile ModelWriter ModelDatabase ModelEnum SpecEnum ModelExport SpecNetwork SpecObjects SpecExport SpecResolv SpecUpdate SpecWriter
  LemmasObjects LemmasWriter LemmasDb LemmasDbProps LemmasEnumAs LemmasEnumDb LemmasExport LemmasExportText
  ModelDownload ModelUpdate LemmasUpdateDb ModelBindings ModelCommand SpecCommand LemmasBindings LemmasCommand LemmasBindingsDb ModelList SpecList LemmasList LemmasListDb LemmasListMore.
Import ListNotations.
Open Scope N_scope.
Local Opaque cleanup.

(** ** Arguments *)
Lemma digits_value_number s : forall v, Forall (fun c => 48 <= c <= 57) s -> digits_value s v = fold_left (fun v d => v * 10 + d) (map (fun c => c - 48) s) v.
Proof.
  induction s as [|c s IH]; intros v F; [reflexivity|]. apply Forall_cons_iff in F as [_ F]. cbn [digits_value map fold_left]. now apply IH.
Qed.
Lemma digits_decimal s : s <> [] -> forallb ModelList.is_digit s = true -> decimal s (digits_value s 0).
Proof.
  intros Z F. assert (F' : Forall (fun c => 48 <= c <= 57) s).
  { apply Forall_forall. intros c I1. rewrite forallb_forall in F. specialize (F c I1). unfold ModelList.is_digit in F. lia. }
  exists (map (fun c => c - 48) s). split; [destruct s; [easy|discriminate]|]. split.
  - apply Forall_map. eapply Forall_impl; [|exact F']. cbv beta. intros. lia.
  - split; [|now apply digits_value_number]. rewrite map_map. rewrite <- (map_id s) at 1. apply map_ext_in. intros c I1.
    rewrite Forall_forall in F'. specialize (F' c I1). lia.
Qed.
Lemma decimal_digits s v : decimal s v -> s <> [] /\ forallb ModelList.is_digit s = true /\ digits_value s 0 = v.
Proof.
  intros (ds & Z & F & -> & ->). assert (F' : Forall (fun c => 48 <= c <= 57) (map (fun d => 48 + d) ds)).
  { apply Forall_map. eapply Forall_impl; [|exact F]. cbv beta. intros. lia. }
  split; [destruct ds; [easy|discriminate]|]. split.
  - apply forallb_forall. intros c I1. rewrite Forall_forall in F'. specialize (F' c I1). unfold ModelList.is_digit. lia.
  - rewrite digits_value_number by exact F'. rewrite map_map. unfold number. f_equal. rewrite <- (map_id ds) at 2. apply map_ext. intros. lia.
Qed.

Lemma strip_newline r : match rev r with 10 :: r' => rev r' | _ => r end = r \/ exists q, r = q ++ [10] /\ match rev r with 10 :: r' => rev r' | _ => r end = q.
Proof.
  destruct (rev r) as [|c r'] eqn:E; [now left|]. destruct (N.eq_dec c 10) as [->|X].
  - right. exists (rev r'). split; [|reflexivity]. rewrite <- (rev_involutive r), E. reflexivity.
  - left. destruct c as [|p]; [reflexivity|]. repeat (destruct p as [p|p|]; try reflexivity). congruence.
Qed.
Lemma strip_no r : Forall (fun c => c <> 10) r -> match rev r with 10 :: r' => rev r' | _ => r end = r.
Proof.
  intros F. destruct (strip_newline r) as [E|(q & E & _)]; [exact E|]. subst r. rewrite Forall_app, Forall_cons_iff in F. tauto.
Qed.
Lemma strip_one q : match rev (q ++ [10]) with 10 :: r' => rev r' | _ => q ++ [10] end = q.
Proof. rewrite rev_app_distr. cbn [rev app]. apply rev_involutive. Qed.

Lemma as_argument_iff s n : as_argument s = Some n <-> names_as s n.
Proof.
  assert (P : forall r, as_argument (65 :: 83 :: r) = (let r := match rev r with 10 :: r' => rev r' | _ => r end in
     match r with [] => None | _ => if forallb ModelList.is_digit r then Some (digits_value r 0) else None end)) by reflexivity.
  split.
  - intros H. destruct s as [|a [|b r]]; try discriminate; [destruct a as [|a]; [discriminate|repeat (destruct a; try discriminate)]|].
    destruct (N.eq_dec a 65) as [->|X]; [|exfalso; destruct a as [|a]; [discriminate|repeat (destruct a; try discriminate); congruence]].
    destruct (N.eq_dec b 83) as [->|X]; [|exfalso; destruct b as [|b]; [discriminate|repeat (destruct b; try discriminate); congruence]].
    rewrite P in H. cbv zeta in H.
    assert (G : forall q, match q with [] => None | _ => if forallb ModelList.is_digit q then Some (digits_value q 0) else None end = Some n -> decimal q n).
    { intros q Q. destruct q as [|c q]; [discriminate|]. destruct (forallb _ _) eqn:F in Q; [|discriminate].
      assert (digits_value (c :: q) 0 = n) as <- by congruence. apply digits_decimal; [discriminate|exact F]. }
    destruct (strip_newline r) as [E|(q & E & E')].
    + rewrite E in H. exists r. split; [now apply G|now left].
    + rewrite E' in H. exists q. split; [now apply G|]. right. now subst r.
  - intros (digits & D & [->| ->]).
    + change (txt "AS" ++ digits) with (65 :: 83 :: digits). rewrite P. cbv zeta. destruct (decimal_digits _ _ D) as (Z & F & <-).
      rewrite strip_no.
      * destruct digits; [easy|]. now rewrite F.
      * apply Forall_forall. intros c I1. rewrite forallb_forall in F. specialize (F c I1). unfold ModelList.is_digit in F. lia.
    + change (txt "AS" ++ digits ++ [10]) with (65 :: 83 :: (digits ++ [10])). rewrite P. cbv zeta. rewrite strip_one.
      destruct (decimal_digits _ _ D) as (Z & F & <-). destruct digits; [easy|]. now rewrite F.
Qed.
Lemma names_country_iff s : cc_is_valid (Some s) || is_special s = true <-> names_country s.
Proof. unfold names_country. rewrite orb_true_iff, is_special_iff. reflexivity. Qed.
Lemma not_both s n : names_as s n -> names_country s -> False.
Proof.
  intros (digits & D & E) [C|(flag & C)].
  - destruct (cc_valid_two s C) as (a & b & -> & _). destruct (decimal_digits _ _ D) as (Z & _). destruct E as [E|E]; cbn in E; destruct digits; try discriminate; easy.
  - destruct E as [->| ->]; inversion C.
Qed.
Lemma arguments_ok args : asked args (fst (arguments args)) (snd (arguments args)).
Proof.
  induction args as [|s args IH]; [constructor|]. cbn [arguments]. destruct (arguments args) as [codes numbers]. cbn [fst snd] in IH.
  destruct (as_argument s) as [n|] eqn:E.
  - apply asked_as; [now apply as_argument_iff|exact IH].
  - destruct (_ || _) eqn:C.
    + apply asked_country; [now apply names_country_iff|exact IH].
    + apply asked_other; [|now rewrite <- names_country_iff, C|exact IH]. intros n N1. apply as_argument_iff in N1. congruence.
Qed.
Lemma names_as_one s n m : names_as s n -> names_as s m -> n = m.
Proof. rewrite <- !as_argument_iff. congruence. Qed.
Lemma asked_arguments args codes numbers : asked args codes numbers -> arguments args = (codes, numbers).
Proof.
  induction 1 as [|s n args codes numbers H _ IH|s args codes numbers H _ IH|s args codes numbers H1 H2 _ IH]; [reflexivity|..]; cbn [arguments]; rewrite IH.
  - apply as_argument_iff in H. now rewrite H.
  - destruct (as_argument s) as [n|] eqn:E; [apply as_argument_iff in E; destruct (not_both s n E H)|].
    apply names_country_iff in H. now rewrite H.
  - destruct (as_argument s) as [n|] eqn:E; [apply as_argument_iff in E; destruct (H1 n E)|].
    rewrite <- names_country_iff in H2. destruct (_ || _); [easy|reflexivity].
Qed.
Lemma arguments_iff args codes numbers : asked args codes numbers <-> arguments args = (codes, numbers).
Proof. split; [apply asked_arguments|]. intros E. pose proof (arguments_ok args) as A. now rewrite E in A. Qed.
Lemma arguments_none args : Forall (fun s => (forall n, ~ names_as s n) /\ ~ names_country s) args -> arguments args = ([], []).
Proof. intros F. apply asked_arguments. induction F as [|s args [H1 H2] _ IH]; [constructor|now apply asked_other]. Qed.
Lemma export_invalid beyond fuel objects hashsize d fmt family args : Forall (fun s => (forall n, ~ names_as s n) /\ ~ names_country s) args ->
  export_command beyond fuel objects hashsize d fmt family args = export_command beyond fuel objects hashsize d fmt family [].
Proof. intros F. unfold export_command. now rewrite (arguments_none args F). Qed.
Lemma asked_codes args codes numbers : asked args codes numbers -> Forall names_country codes.
Proof. induction 1; auto. Qed.

(** ** The search *)
Lemma longs_ok asns : Forall (fun a => 0 < a < 2 ^ 32) asns -> py_longs (map Z.of_N asns) = value asns.
Proof.
  induction 1 as [|a asns B _ IH]; [reflexivity|]. cbn [map py_longs]. rewrite IH. unfold py_long.
  replace (_ && _) with true by lia. rewrite Z.mod_small by lia. rewrite N2Z.id. reflexivity.
Qed.
Lemma search_same countries asns f e : Forall (fun a => 0 < a < 2 ^ 32) asns ->
  search_networks countries asns (number_of f) = Ok e ->
  py_search_networks (Some countries) (Some (map Z.of_N asns)) 0 (family_number f) true = value e.
Proof.
  intros B H. unfold py_search_networks. rewrite (longs_ok asns B). unfold search_networks in H.
  destruct (add_codes olist_new countries) as [l|r| |]; try discriminate. cbn [bind] in H. cbn [value pbind bind].
  destruct (add_asns olist_new asns) as [l'|r| |]; try discriminate. cbn [bind] in *. cbn [value pbind bind].
  injection H as <-. replace (family_number f) with (number_of f) by (destruct f; reflexivity). now replace (number_of f =? 0)%Z with false by (destruct f; reflexivity).
Qed.

(** ** Files *)
Lemma file_ok hashsize fmt f k l : fmt <> XtGeoip -> (forall n, hashsize n < 10 ^ 8) -> Forall valid_network l ->
  match k with Asn a => a < 2 ^ 32 | Code _ => True end ->
  exported_file fmt f k l (file_of hashsize fmt f (k, l)).
Proof.
  intros X Hs V K.
  assert (Nm : output_name k (key_name k)). { destruct k as [c|a]; [reflexivity|]. exists (dec a). split; [now apply dec_plain|reflexivity]. }
  assert (Tg : tag (key_name k) f = key_name k ++ version_of f) by (destruct f; reflexivity).
  unfold exported_file, file_of. cbv zeta. cbn [fst snd]. rewrite Tg. set (t := key_name k ++ version_of f) in *.
  destruct fmt; [| | |congruence]; cbn [fst snd suffix].
  - destruct (ipset_file_text t f (hashsize (length l)) l V (Hs _)) as (texts & number & spaces & W & R & D & E).
    exists (key_name k), texts. split; [exact Nm|]. split; [exact W|]. split; [exact R|]. split; [reflexivity|]. eauto.
  - destruct (list_file_text l V) as (texts & W & R & E). exists (key_name k), texts. auto.
  - destruct (nft_file_text t l V) as (texts & W & R & E). exists (key_name k), texts. auto.
Qed.

Section Db.
Variables (ctz0 : nat) (held : network -> bool) (key1 key2 : option evp).
Variables (os : list call) (w : writer) (x : save) (w' : writer) (f : list N) (d : db).
Hypothesis Call : Forall call_ok os.
Hypothesis Prog : program ctz0 held key1 key2 os = Ok w.
Hypothesis Write : write_to ctz0 held key1 key2 w x = Ok (0%Z, w', f).
Hypothesis Size : N.of_nat (length f) < 2 ^ 32.
Hypothesis Now : s_now x < 2 ^ 64.
Hypothesis Open : db_open f = Ok d.
Hypothesis NoSave : Forall no_save os.
Hypothesis Ordinary : ordinary (given os).

Section Request.
Variables (beyond : nat -> option N) (hashsize : nat -> N) (fmt : format).
Hypothesis Fmt : fmt <> XtGeoip.
Hypothesis Hash : forall n, hashsize n < 10 ^ 8.

Lemma families_ok codes numbers families : request_ok codes numbers -> exists f0 o0 parts,
  (forall fuel objects, (f0 <= fuel)%nat -> (o0 <= objects)%nat ->
     export_families beyond fuel objects hashsize d fmt codes numbers families = value (concat parts)) /\
  Forall2 (exported fmt (given os) codes numbers) families parts.
Proof.
  intros R. induction families as [|fam families (f1 & o1 & parts & E1 & F1)].
  { exists O, O, []. split; [reflexivity|constructor]. }
  destruct (export_list _ _ _ _ _ _ _ _ _ _ Call Prog Write Size Now Open NoSave beyond None codes numbers fam R Ordinary) as (st & e & L & f2 & Es & Ee & En & N1 & K & H).
  exists (Nat.max f1 f2), (Nat.max o1 (S (length L))), (map (file_of hashsize fmt fam) (export_networks codes numbers L) :: parts).
  clear Call Prog Write Open. split.
  - intros fuel objects Hf Ho. cbn [export_families].
    assert (Q : export_families beyond fuel objects hashsize d fmt codes numbers families = value (concat parts)) by (apply E1; lia).
    assert (M : of_networks e) by (left; rewrite Ee; apply (configured_state Networks true st)).
    rewrite (search_same _ _ _ _ (proj2 R) Es). cbn [value pbind bind].
    rewrite (all_networks_ok beyond fuel d L e objects M (En fuel ltac:(lia)) ltac:(lia)). cbn [value pbind bind]. rewrite Q.
    destruct fmt; try congruence; reflexivity.
  - constructor; [|exact F1]. exists (export_networks codes numbers L). split; [exact N1|]. split; [exact K|]. split; [|exact H].
    assert (G : forall k l, In (k, l) (export_networks codes numbers L) -> exported_file fmt fam k l (file_of hashsize fmt fam (k, l))).
    { intros k l I1. apply file_ok; auto.
      - destruct (H k l I1) as (V & _). eapply Forall_impl; [|exact V]. cbv beta. intros n [Vn _]. exact Vn.
      - destruct k as [c|a]; [exact Logic.I|]. destruct R as [_ R]. rewrite Forall_forall in R. apply R. apply (proj2 (K (Asn a))). eauto. }
    clear -G. induction (export_networks codes numbers L) as [|[k l] ws IH]; cbn [map]; constructor.
    + apply G. now left.
    + apply IH. intros; apply G; now right.
Qed.

Lemma export_ok args codes numbers family : asked args codes numbers -> Forall (fun a => 0 < a < 2 ^ 32) numbers -> exists f0 o0 parts,
  (forall fuel objects, (f0 <= fuel)%nat -> (o0 <= objects)%nat ->
     export_command beyond fuel objects hashsize d fmt family args = value (concat parts)) /\
  Forall2 (exported fmt (given os) (request (meaning os) codes numbers) numbers)
    (match family with Some fam => [fam] | None => [AF_INET6; AF_INET] end) parts.
Proof.
  intros As Nu. assert (R : request_ok (request (meaning os) codes numbers) numbers).
  { split; [|exact Nu]. pose proof (asked_codes _ _ _ As) as C. unfold request. destruct codes, numbers; try exact C.
    apply Forall_app. split.
    - apply Forall_forall. intros c [<-|[<-|[<-|[<-|[]]]]]; right; eexists; constructor.
    - apply Forall_map, Forall_forall. intros z I1. left. exact (proj2 (code_ascii _ z I1)). }
  destruct (families_ok _ _ (match family with Some fam => [fam] | None => [AF_INET6; AF_INET] end) R) as (f0 & o0 & parts & E & F).
  destruct (countries_enumerated _ _ _ _ _ _ _ _ _ _ Call Prog Write Size Now Open) as (L & En & Ln & Cs & _).
  exists f0, (Nat.max o0 (S (length L))), parts. split; [|exact F]. intros fuel objects Hf Ho.
  pose proof (fun z (I1 : In z (countries (meaning os))) => proj1 (code_ascii _ z I1)) as U.
  specialize (E fuel objects Hf ltac:(clear -Ho; lia)). clear Call Prog Write Open.
  unfold export_command. rewrite (asked_arguments _ _ _ As).
  assert (Cm : (match codes, numbers with
         | [], [] => pbind (all_codes beyond fuel d objects (iterate_all Countries 0 false)) (fun l => value (map snd FLAGS ++ l))
         | _, _ => value codes
         end) = value (request (meaning os) codes numbers)).
  { unfold request. destruct codes, numbers; try reflexivity.
    change (iterate_all Countries 0 false) with (configured Countries false []).
    rewrite (all_codes_ok beyond fuel d L _ objects); [|apply (configured_state Countries false [])|exact En|clear -Ho; lia|].
    - rewrite Cs. reflexivity.
    - apply Forall_forall. intros y I1. assert (I2 : In (cc_str (c_code y)) (map the_code (countries (meaning os)))) by (rewrite <- Cs; apply (in_map (fun y => cc_str (c_code y)) _ _ I1)).
      apply in_map_iff in I2 as (z & <- & I2). now apply U. }
  rewrite Cm. cbn [value pbind bind]. exact E.
Qed.
End Request.
End Db.
