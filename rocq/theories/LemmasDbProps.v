(** The theorems about written databases in the form of PropsDatabase. *)
From Coq Require Import NArith ZArith List Bool Arith Lia ZifyBool ZifyNat ZifyN Permutation Sorting.Sorted.
From Verif Require Import Base ModelAddress ModelCountryCode ModelNetwork ModelTree ModelStringPool ModelObjects
  ModelFile ModelWriter ModelDatabase SpecNetwork SpecStringPool SpecObjects SpecTree SpecWriter
  LemmasBase LemmasStringPool LemmasObjects LemmasFile LemmasWriter LemmasWrite LemmasOpen LemmasDb LemmasDbCountry LemmasTreeProps.
Import ListNotations.
Open Scope N_scope.

(** ** The meaning of calls *)
Lemma meaning_snoc os o : meaning (os ++ [o]) = means (meaning os) o.
Proof. unfold meaning. now rewrite fold_left_app. Qed.

Lemma map_same {A B} (g : A -> B) (h : A -> A) l : (forall x, g (h x) = g x) -> map g (map h l) = map g l.
Proof. intros H. rewrite map_map. now apply map_ext. Qed.

Lemma meaning_numbers os n : In n (map the_number (ases (meaning os))) <-> In (AddAs n) os.
Proof.
  induction os as [|o os IH] using rev_ind; [easy|]. rewrite meaning_snoc, in_app_iff. cbn [In].
  assert (X : (exists m, o = AddAs m) \/ map the_number (ases (means (meaning os) o)) = map the_number (ases (meaning os)) /\ forall m, o <> AddAs m).
  { destruct o as [[s|]|[s|]|[s|]|m|id s|s|id s|id [[|a [|b [|]]]|]|m|m a|x]; cbn [means ases]; eauto; right; (split; [|discriminate]); auto.
    - apply map_same. intros y. now destruct (_ =? _)%nat.
    - destruct (country_code s); auto. }
  destruct X as [[m ->]|[-> X]].
  - cbn [means ases]. destruct (existsb _ (ases (meaning os))) eqn:E.
    + rewrite IH. split; auto. intros [H|[[= ->]|[]]]; auto. apply existsb_exists in E as (a & I & E). apply IH.
      replace n with (the_number a) by lia. now apply in_map.
    + rewrite map_app, in_app_iff, IH. cbn [map In the_number]. split; (intros [H|[H|[]]]; auto); right; left; congruence.
  - rewrite IH. split; auto. intros [H|[H|[]]]; auto. now apply X in H.
Qed.

Lemma meaning_numbers_once os : NoDup (map the_number (ases (meaning os))).
Proof.
  induction os as [|o os IH] using rev_ind; [constructor|]. rewrite meaning_snoc.
  destruct o as [[s|]|[s|]|[s|]|m|id s|s|id s|id [[|a [|b [|]]]|]|m|m a|x]; cbn [means ases]; auto.
  - destruct (existsb _ (ases (meaning os))) eqn:E; auto. rewrite map_app. cbn [map the_number].
    apply (Permutation_NoDup (Permutation_cons_append _ _)). constructor; auto. intros I.
    apply in_map_iff in I as (a & Ea & I). enough (existsb (fun a => the_number a =? m) (ases (meaning os)) = true) by congruence.
    apply existsb_exists. exists a. split; auto. lia.
  - rewrite map_same; auto. intros y. now destruct (_ =? _)%nat.
  - destruct (country_code s); auto.
Qed.

Lemma meaning_codes_once os : NoDup (map the_code (countries (meaning os))).
Proof.
  induction os as [|o os IH] using rev_ind; [constructor|]. rewrite meaning_snoc.
  destruct o as [[t|]|[t|]|[t|]|m|id t|t|id t|id [[|a [|b [|]]]|]|m|m a|x]; cbn [means countries]; auto;
    try (rewrite map_same; [assumption|]; intros y; now destruct (_ =? _)%nat).
  destruct (country_code t) as [c|]; auto. cbn [countries].
  destruct (existsb _ (countries (meaning os))) eqn:E; auto. rewrite map_app. cbn [map the_code].
  apply (Permutation_NoDup (Permutation_cons_append _ _)). constructor; auto. intros I.
  apply in_map_iff in I as (a & Ea & I). enough (existsb (fun x => string_eqb (the_code x) c) (countries (meaning os)) = true) by congruence.
  apply existsb_exists. exists a. split; auto. unfold string_eqb. now destruct (list_eq_dec _ _ _).
Qed.

Lemma meaning_codes os s :
  In s (map the_code (countries (meaning os))) <-> exists o, In (AddCountry o) os /\ country_code o = Some s.
Proof.
  induction os as [|o os IH] using rev_ind; [split; [easy|intros (? & [] & _)]|]. rewrite meaning_snoc.
  assert (X : (exists m, o = AddCountry m) \/ map the_code (countries (means (meaning os) o)) = map the_code (countries (meaning os)) /\ forall m, o <> AddCountry m).
  { destruct o as [[t|]|[t|]|[t|]|m|id t|t|id t|id [[|a [|b [|]]]|]|m|m a|x]; cbn [means countries]; eauto; right; (split; [|discriminate]); auto;
    apply map_same; intros y; now destruct (_ =? _)%nat. }
  assert (Y : forall m, (exists o0, In (AddCountry o0) (os ++ [AddCountry m]) /\ country_code o0 = Some s) <->
    In s (map the_code (countries (meaning os))) \/ country_code m = Some s).
  { intros m. rewrite IH. split.
    - intros (o0 & I & E). apply in_app_iff in I as [I|[[= ->]|[]]]; eauto.
    - intros [(o0 & I & E)|E]; eexists; (split; [apply in_app_iff|eauto]); [now left|right; now left]. }
  destruct X as [[m ->]|[-> X]].
  - rewrite Y. cbn [means]. destruct (country_code m) as [c|] eqn:E.
    + cbn [countries]. destruct (existsb _ (countries (meaning os))) eqn:E'.
      * split; auto. intros [H|[= ->]]; auto. apply existsb_exists in E' as (a & I & E'). unfold string_eqb in E'.
        destruct (list_eq_dec _ _ _) as [<-|]; [|discriminate]. now apply in_map.
      * rewrite map_app, in_app_iff. cbn [map In the_code]. split; [intros [H|[H|[]]]; auto; right; congruence|].
        intros [H|[= ->]]; auto.
    + split; auto. intros [H|H]; [auto|discriminate].
  - rewrite IH. split; intros (o0 & I & E); exists o0; (split; [|auto]); [apply in_app_iff; auto|].
    apply in_app_iff in I as [I|[I|[]]]; auto. now apply X in I.
Qed.

Section Props.
Variables (ctz0 : nat) (held : network -> bool) (key1 key2 : option evp).
Variables (os : list call) (w : writer) (x : save) (w' : writer) (f : list N) (d : db).
Hypothesis Call : Forall call_ok os.
Hypothesis Prog : program ctz0 held key1 key2 os = Ok w.
Hypothesis Write : write_to ctz0 held key1 key2 w x = Ok (0%Z, w', f).
Hypothesis Size : N.of_nat (length f) < 2 ^ 32.
Hypothesis Now : s_now x < 2 ^ 64.

Lemma is_written : exists d ss ss' e offs nets rest, written ctz0 held (meaning os) w x w' f d ss ss' e offs nets rest.
Proof.
  destruct (program_inv _ _ _ _ os w Call Prog) as [ss I].
  destruct (writing _ _ _ _ w (meaning os) ss x w' f I Write Size Now) as (d0 & ss' & e & offs & nets & rest & Q).
  now exists d0, ss, ss', e, offs, nets, rest.
Qed.

Lemma written_metadata : exists d, db_open f = Ok d /\
    get_vendor d = Ok (Some (vendor (meaning os))) /\
    get_description d = Ok (Some (description (meaning os))) /\
    get_license d = Ok (Some (license (meaning os))) /\
    d_created_at d = s_now x /\
    count_as d = N.of_nat (length (ases (meaning os))).
Proof.
  destruct is_written as (d0 & ss & ss' & e & offs & nets & rest & Q). exists d0.
  split; [apply Q|]. exact (metadata _ _ _ _ _ _ _ _ _ _ _ _ _ _ Q).
Qed.

Hypothesis Open : db_open f = Ok d.

Lemma is_written_d : exists ss ss' e offs nets rest, written ctz0 held (meaning os) w x w' f d ss ss' e offs nets rest.
Proof.
  destruct is_written as (d0 & ss & ss' & e & offs & nets & rest & Q). exists ss, ss', e, offs, nets, rest.
  pose proof (q_open _ _ _ _ _ _ _ _ _ _ _ _ _ _ Q) as O. rewrite Open in O. apply (f_equal (fun r => match r with Ok x => x | _ => d end)) in O. cbv beta iota in O.
  now rewrite O.
Qed.

Ltac get := destruct is_written_d as (ss & ss' & e & offs & nets & rest & Q).

Lemma written_get_as :
  (forall a, In a (ases (meaning os)) -> exists r, get_as d (the_number a) = Ok r /\
     as_number r = the_number a /\
     as_name r = Some (match the_name a with Some s => s | None => [] end)) /\
  (forall n, ~ In n (map the_number (ases (meaning os))) -> get_as d n = Err 1).
Proof. get. exact (get_as_spec _ _ _ _ _ _ _ _ _ _ _ _ _ _ Q). Qed.

Lemma written_get_country :
  countries_in_order (meaning os) ->
  (forall z, In z (countries (meaning os)) -> exists y, get_country d (Some (the_code z)) = Ok (Some y) /\
     cc_str (c_code y) = the_code z /\
     country_get_name y = Ok (Some (match the_country_name z with Some s => s | None => [] end))) /\
  (forall s, country_code (Some s) <> None -> ~ In s (map the_code (countries (meaning os))) ->
     get_country d (Some s) = Ok None) /\
  (forall s, country_code s = None -> get_country d s = Err 1).
Proof. get. exact (get_country_spec _ _ _ _ _ _ _ _ _ _ _ _ _ _ Q). Qed.

Lemma written_only_added s :
  country_code (Some s) <> None ->
  get_country d (Some s) = Ok None \/
  exists z y, In z (countries (meaning os)) /\ the_code z = s /\ get_country d (Some s) = Ok (Some y) /\
    cc_str (c_code y) = s /\
    country_get_name y = Ok (Some (match the_country_name z with Some s => s | None => [] end)).
Proof. get. exact (get_country_only _ _ _ _ _ _ _ _ _ _ _ _ _ _ s Q). Qed.

Lemma written_countries :
  let block := if fst (s_block0 x) =? 0 then None else Some (cc_str (s_block0 x)) in
  snd (d_countries d) = N.of_nat (length (countries (meaning os))) /\
  forall i z, nth_error (countries (meaning os)) i = Some z ->
    exists y, fetch_country d (N.of_nat i) = Ok y /\
      cc_str (c_code y) = the_code z /\
      nth_error (continents_read block (countries (meaning os))) i = Some (country_get_continent_code y) /\
      country_get_name y = Ok (Some (match the_country_name z with Some s => s | None => [] end)).
Proof.
  get. cbv zeta. split; [exact (count_countries_spec _ _ _ _ _ _ _ _ _ _ _ _ _ _ Q)|]. intros i z E.
  destruct (fetch_country_spec _ _ _ _ _ _ _ _ _ _ _ _ _ _ i z Q E) as (y & Y1 & Y2 & _ & Y3 & Y4). exists y. auto.
Qed.

Lemma continents_set l : forall b i z, nth_error l i = Some z -> the_continent z <> None ->
  nth_error (continents_read b l) i = Some (the_continent z).
Proof.
  clear. induction l as [|y l IH]; intros b [|i] z E T; try discriminate; cbn [nth_error continents_read] in *; auto.
  injection E as ->. destruct (the_continent z); easy.
Qed.

Lemma written_complete i z :
  nth_error (countries (meaning os)) i = Some z ->
  the_continent z <> None -> the_country_name z <> None ->
  exists y, fetch_country d (N.of_nat i) = Ok y /\
    cc_str (c_code y) = the_code z /\
    country_get_continent_code y = the_continent z /\
    country_get_name y = Ok (the_country_name z).
Proof.
  intros E T Na. destruct (proj2 written_countries i z E) as (y & Y1 & Y2 & Y3 & Y4). exists y.
  split; auto. split; auto. rewrite (continents_set _ _ _ _ E T) in Y3. injection Y3 as Y3. split; auto.
  rewrite Y4. destruct (the_country_name z); easy.
Qed.

Lemma written_sections :
  let as_end := fst (d_as d) + 8 * snd (d_as d) in
  let tree_end := fst (d_tree d) + 12 * snd (d_tree d) in
  let data_end := fst (d_data d) + 12 * snd (d_data d) in
  let countries_end := fst (d_countries d) + 8 * snd (d_countries d) in
  fst (d_as d) mod 4096 = 0 /\ fst (d_tree d) mod 4096 = 0 /\ fst (d_data d) mod 4096 = 0 /\
  fst (d_countries d) mod 4096 = 0 /\ fst (d_pool d) mod 4096 = 0 /\
  8 + 4192 <= fst (d_as d) /\ as_end <= fst (d_tree d) /\ tree_end <= fst (d_data d) /\
  data_end <= fst (d_countries d) /\ countries_end <= fst (d_pool d) /\
  fst (d_pool d) + snd (d_pool d) <= N.of_nat (length f).
Proof. get. exact (sections_layout _ _ _ _ _ _ _ _ _ _ _ _ _ _ Q). Qed.
End Props.

(** Concrete cases *)
Lemma a_case ctz0 held key1 key2 os x (P : db -> bool) :
  match program ctz0 held key1 key2 os with
  | Ok w => match write_to ctz0 held key1 key2 w x with
            | Ok (0%Z, w', f) =>
                match db_open f with
                | Ok d => (N.of_nat (length f) <? 2 ^ 32) && (s_now x <? 2 ^ 64) && P d
                | _ => false
                end
            | _ => false
            end
  | _ => false
  end = true ->
  exists w w' f d, program ctz0 held key1 key2 os = Ok w /\ write_to ctz0 held key1 key2 w x = Ok (0%Z, w', f) /\
    N.of_nat (length f) < 2 ^ 32 /\ s_now x < 2 ^ 64 /\ db_open f = Ok d /\ P d = true.
Proof.
  destruct (program _ _ _ _ os) as [w| | |]; try discriminate.
  destruct (write_to _ _ _ _ w x) as [[[[| |] w'] f]| | |] eqn:E; try discriminate.
  destruct (db_open f) as [d| | |] eqn:O; try discriminate. intros H. apply andb_true_iff in H as [H1 H2].
  apply andb_true_iff in H1 as [H0 H1]. exists w, w', f, d. split; auto. split; auto. split; [lia|]. split; [lia|]. auto.
Qed.

Ltac netok := apply net_of_addr_valid; [split; [reflexivity|repeat constructor]|cbn; split; [first [left; reflexivity|right; lia]|split; reflexivity]|reflexivity].
Ltac calls := repeat (apply Forall_cons; [cbn [call_ok opt_cstr]; first [exact I|lia|netok|split; [netok|cbn; split; [first [left; reflexivity|right; lia]|split; reflexivity]]|repeat constructor; cbn; lia]|]); apply Forall_nil.
