(** The writer's state and what its calls mean; the layout of the file. *)
From Coq Require Import NArith ZArith List Bool Arith Lia ZifyBool ZifyNat ZifyN Permutation.
From Verif Require Import Base ModelAddress ModelCountryCode ModelNetwork ModelTree ModelStringPool ModelObjects
  ModelFile ModelWriter SpecNetwork SpecStringPool SpecObjects SpecTree SpecWriter
  LemmasBase LemmasStringPool LemmasSpecNetwork LemmasTree LemmasTreeProps LemmasObjects LemmasFile.
Import ListNotations.
Open Scope N_scope.

Definition the_as (a : as_obj) : an_as := mkAnAs (as_id a) (as_number a) (as_name a).
Definition is_country (c : country) (x : a_country) : Prop :=
  c_id c = country_no x /\ cc_str (c_code c) = the_code x /\
  (match the_continent x with
   | None => fst (c_continent c) = 0
   | Some s => s = cc_str (c_continent c) /\ two_letters (c_continent c)
   end) /\
  (match c_name c with
   | NoName => the_country_name x = None
   | Name s => the_country_name x = Some s /\ is_cstr s
   | Dangling => True
   end).
Definition sig_ok (s : list N * N) : Prop := N.of_nat (length (fst s)) = SIG_MAX /\ snd s <= SIG_MAX.

Notation as_list_ok := (list_ok as_number (fun _ : as_obj => True)).
Notation country_list_ok := (list_ok country_key country_ok).
Definition as_fine (a : as_obj) : Prop := as_number a < 2 ^ 32 /\ opt_cstr (as_name a).

(** The relation between a writer, its meaning and the strings of its pool *)
Record winv (w : writer) (c : contents) (ss : list cstr) : Prop := mkWinv {
  i_pool : pool_ok (w_pool w) ss;
  i_first : exists tail, ss = [] :: tail;
  i_vendor : located ss (vendor c) (w_vendor w);
  i_description : located ss (description c) (w_description w);
  i_license : located ss (license c) (w_license w);
  i_as : Permutation (map the_as (ol_elems (w_as w))) (ases c);
  i_as_ok : as_list_ok (w_as w);
  i_as_fine : Forall as_fine (ol_elems (w_as w));
  i_countries : Forall2 is_country (ol_elems (w_countries w)) (countries c);
  i_countries_ok : country_list_ok (w_countries w);
  i_next : w_next w = next_object c;
  i_tree : tree_ok (w_tree w);
  i_sig1 : sig_ok (w_sig1 w);
  i_sig2 : sig_ok (w_sig2 w);
  i_valid : Forall (fun x => cc_is_valid (Some (the_code x)) = true) (countries c)
}.

Lemma no_sig_ok : sig_ok no_sig.
Proof. unfold sig_ok, no_sig. cbn [fst snd]. rewrite repeat_length. unfold SIG_MAX. lia. Qed.

Lemma writer_new_inv : exists w, writer_new = Ok w /\ winv w nothing [[]] /\ w_tree w = tree_new.
Proof.
  unfold writer_new. cbn. eexists. split; [reflexivity|]. split; [|reflexivity].
  assert (L : located [[]] [] 0) by (exists [], []; auto).
  constructor; cbn; auto.
  - constructor; cbn; auto; [repeat constructor|unfold block_size; lia|].
    intros [|? [|? ?]] B [|? [|? ?]] B' s N E E'; try discriminate; auto.
  - now exists [].
  - apply new_ok.
  - apply new_ok.
  - apply tree_new_ok.
  - apply no_sig_ok.
  - apply no_sig_ok.
Qed.

Lemma pool_add_inv p ss s p' off : pool_ok p ss -> is_cstr s -> pool_add p (Some s) = Ok (p', off) ->
  exists tail, pool_ok p' (ss ++ tail) /\ located (ss ++ tail) s off.
Proof.
  intros P H E. destruct (add_spec p ss s P H) as [[X _]|(p1 & tail & A & B & E1 & P1 & E2 & _)].
  - rewrite X in E. discriminate.
  - rewrite E1 in E. injection E as <- <-. exists tail. split; auto. exists A, B. auto.
Qed.

Lemma pool_add_none p : pool_add p None = Err (-1).
Proof. reflexivity. Qed.

Lemma pool_add_not_err p ss s : pool_ok p ss -> is_cstr s ->
  pool_add p (Some s) = UB \/ exists p' off, pool_add p (Some s) = Ok (p', off).
Proof.
  intros P H. destruct (add_spec p ss s P H) as [[X _]|(p1 & tail & A & B & E1 & _)]; eauto.
Qed.

Lemma first_app (ss tail : list cstr) : (exists t, ss = [] :: t) -> exists t, ss ++ tail = [] :: t.
Proof. intros [t ->]. now exists (t ++ tail). Qed.

(** winv with a longer pool *)
Lemma winv_more w c ss p tail : winv w c ss -> pool_ok p (ss ++ tail) -> winv (with_pool w p) c (ss ++ tail).
Proof.
  intros [] P. constructor; cbn [with_pool w_pool w_vendor w_description w_license w_as w_countries w_next w_tree w_sig1 w_sig2];
    auto using located_app, first_app.
Qed.

Lemma set_strings_inv w c ss s p off f v : winv w c ss -> is_cstr s -> pool_add (w_pool w) (Some s) = Ok (p, off) ->
  (f = (fun o => mkWriter p o (w_description w) (w_license w) (w_sig1 w) (w_sig2 w) (w_tree w) (w_as w) (w_countries w) (w_next w)) /\
   v = (fun s => mkContents s (description c) (license c) (ases c) (countries c) (next_object c))) \/
  (f = (fun o => mkWriter p (w_vendor w) o (w_license w) (w_sig1 w) (w_sig2 w) (w_tree w) (w_as w) (w_countries w) (w_next w)) /\
   v = (fun s => mkContents (vendor c) s (license c) (ases c) (countries c) (next_object c))) \/
  (f = (fun o => mkWriter p (w_vendor w) (w_description w) o (w_sig1 w) (w_sig2 w) (w_tree w) (w_as w) (w_countries w) (w_next w)) /\
   v = (fun s => mkContents (vendor c) (description c) s (ases c) (countries c) (next_object c))) ->
  exists ss', winv (f off) (v s) ss'.
Proof.
  intros I H E F. destruct (pool_add_inv _ _ _ _ _ (i_pool _ _ _ I) H E) as (tail & P & L).
  exists (ss ++ tail). destruct I.
  destruct F as [[-> ->]|[[-> ->]|[-> ->]]]; constructor;
    cbn [w_pool w_vendor w_description w_license w_as w_countries w_next w_tree w_sig1 w_sig2
         vendor description license ases countries next_object]; auto using located_app, first_app.
Qed.

Lemma Forall2_len {A B} (R : A -> B -> Prop) l m : Forall2 R l m -> length l = length m.
Proof. induction 1; cbn [length]; auto. Qed.

Lemma existsb_perm {A} (f : A -> bool) l m : Permutation l m -> existsb f l = existsb f m.
Proof.
  intros P. apply Bool.eq_iff_eq_true. rewrite !existsb_exists.
  split; intros (x & I & E); exists x; split; auto; [now apply (Permutation_in _ P)|now apply (Permutation_in _ (Permutation_sym P))].
Qed.

Lemma existsb_map {A B} (f : B -> bool) (g : A -> B) l : existsb f (map g l) = existsb (fun x => f (g x)) l.
Proof. induction l as [|x l IH]; cbn [map existsb]; auto. now rewrite IH. Qed.

Lemma existsb_ext' {A} (f g : A -> bool) l : (forall x, In x l -> f x = g x) -> existsb f l = existsb g l.
Proof. intros H. induction l as [|x l IH]; cbn [existsb]; auto. rewrite H by now left. f_equal. apply IH. intros y Hy. apply H. now right. Qed.

Lemma add_as_inv w c ss n : winv w c ss -> n < 2 ^ 32 ->
  exists w', writer_add_as w n = Ok w' /\ winv w' (means c (AddAs n)) ss.
Proof.
  intros I Hn. pose proof (i_as_ok _ _ _ I) as L. unfold writer_add_as.
  assert (X : existsb (fun a => the_number a =? n) (ases c) = true <-> In n (map as_number (ol_elems (w_as w)))).
  { rewrite <- (existsb_perm _ _ _ (i_as _ _ _ I)), existsb_map, existsb_exists, in_map_iff. cbn [the_as the_number].
    split; intros (x & A & B); exists x; split; auto; lia. }
  cbn [means]. destruct (existsb _ (ases c)) eqn:E.
  - rewrite (append_old as_cmp as_number (fun _ => True) as_cmp_key) by (auto; now apply X). cbn [bind].
    eexists. split; [reflexivity|]. destruct I. constructor;
    cbn [count_object with_as w_pool w_vendor w_description w_license w_as w_countries w_next w_tree w_sig1 w_sig2
         vendor description license ases countries next_object]; auto.
  - destruct (append_new as_cmp as_number (fun _ => True) as_cmp_key (w_as w) (as_new (w_next w) n) L Logic.I)
      as (l' & -> & El & L'). { cbn [as_number as_new]. rewrite <- X. discriminate. }
    cbn [bind]. eexists. split; [reflexivity|]. destruct I. constructor;
    cbn [count_object with_as w_pool w_vendor w_description w_license w_as w_countries w_next w_tree w_sig1 w_sig2
         vendor description license ases countries next_object]; auto.
    + rewrite El, map_app. cbn [map]. apply Permutation_app; auto. now rewrite <- i_next0.
    + rewrite El. apply Forall_app. split; auto. constructor; auto. now split.
Qed.

Lemma name_as_inv w c ss id s : winv w c ss -> opt_cstr s -> winv (name_as w id s) (means c (NameAs id s)) ss.
Proof.
  intros I H. destruct I. unfold name_as. constructor;
    cbn [with_as means w_pool w_vendor w_description w_license w_as w_countries w_next w_tree w_sig1 w_sig2
         vendor description license ases countries next_object ol_elems ol_cap]; auto.
  - rewrite map_map. eapply perm_trans; [|apply Permutation_map; exact i_as0]. rewrite map_map.
    apply eq_ind with (x := map (fun x => the_as (if (as_id x =? id)%nat then as_set_name x s else x)) (ol_elems (w_as w)));
      [apply Permutation_refl|]. apply map_ext. intros a. cbn [the_as as_no]. now destruct (as_id a =? id)%nat.
  - destruct i_as_ok0 as (A & B & C). split; [|split]; cbn [ol_elems ol_cap].
    + now apply Forall_forall.
    + rewrite map_map. rewrite map_ext with (g := as_number); auto. intros a. now destruct (as_id a =? id)%nat.
    + now rewrite map_length.
  - apply Forall_map. eapply Forall_impl; [|exact i_as_fine0]. intros a [A B]. destruct (as_id a =? id)%nat; split; auto.
Qed.

Lemma country_code_valid s : country_code s = match s with Some s => if cc_is_valid (Some s) then Some s else None | None => None end.
Proof.
  destruct s as [[|a [|b [|x s]]]|]; try reflexivity. unfold country_code, cc_is_valid, chr. cbn [length Nat.eqb negb existsb nth].
  destruct (N.leb_spec 65 a), (N.leb_spec a 90), (N.leb_spec 65 b), (N.leb_spec b 90), (N.ltb_spec a 65), (N.ltb_spec 90 a),
    (N.ltb_spec b 65), (N.ltb_spec 90 b); try lia; cbn [andb orb]; try reflexivity.
Qed.

Lemma cc_str_two c : two_letters c -> cc_str c = [fst c; snd c].
Proof.
  destruct c as [a b]. unfold two_letters, cc_str. cbn [fst snd]. intros [A B].
  replace (a =? 0) with false by lia. now replace (b =? 0) with false by lia.
Qed.

Lemma code_key c d : two_letters c -> two_letters d -> code_number c = code_number d <-> cc_str c = cc_str d.
Proof.
  intros C D. rewrite !cc_str_two by auto. split.
  - intros E. apply code_number_inj in E; auto. now subst.
  - intros [= A B]. unfold code_number. now rewrite A, B.
Qed.

Lemma Forall2_app_one {A B} (R : A -> B -> Prop) l m x y : Forall2 R l m -> R x y -> Forall2 R (l ++ [x]) (m ++ [y]).
Proof. intros. apply Forall2_app; auto. Qed.

Lemma Forall2_in_r {A B} (R : A -> B -> Prop) l m y : Forall2 R l m -> In y m -> exists x, In x l /\ R x y.
Proof.
  induction 1 as [|a b l m H F IH]; intros I; [destruct I|]. destruct I as [<-|I].
  - exists a. split; auto. now left.
  - destruct (IH I) as (x & ? & ?). exists x. split; auto. now right.
Qed.
Lemma Forall2_in_l {A B} (R : A -> B -> Prop) l m x : Forall2 R l m -> In x l -> exists y, In y m /\ R x y.
Proof.
  induction 1 as [|a b l m H F IH]; intros I; [destruct I|]. destruct I as [<-|I].
  - exists b. split; auto. now left.
  - destruct (IH I) as (y & ? & ?). exists y. split; auto. now right.
Qed.

Lemma string_eqb_iff a b : string_eqb a b = true <-> a = b.
Proof. unfold string_eqb. destruct (list_eq_dec N.eq_dec a b); split; auto; discriminate. Qed.

Lemma add_country_inv w c ss code : winv w c ss ->
  match country_code code with
  | None => writer_add_country w code = Err 1
  | Some _ => exists w', writer_add_country w code = Ok w' /\ winv w' (means c (AddCountry code)) ss
  end.
Proof.
  intros I. pose proof (i_countries_ok _ _ _ I) as L. pose proof (i_countries _ _ _ I) as F. cbn [means].
  rewrite country_code_valid. destruct code as [s|]; [|reflexivity].
  unfold writer_add_country. destruct (cc_is_valid (Some s)) eqn:V.
  2:{ unfold country_new. rewrite V. reflexivity. }
  destruct (country_new_spec (w_next w) s V) as (x & -> & Ox & Ex & Ix & Kx & Nx). cbn [bind].
  assert (X : existsb (fun y => string_eqb (the_code y) s) (countries c) = true <-> In (country_key x) (map country_key (ol_elems (w_countries w)))).
  { rewrite existsb_exists, in_map_iff. destruct L as (L & _). rewrite Forall_forall in L. split.
    - intros (y & A & B). apply string_eqb_iff in B. destruct (Forall2_in_r _ _ _ _ F A) as (z & Z1 & Z2). exists z.
      split; auto. apply code_key; auto; [now apply L|]. destruct Z2 as (_ & Z2 & _). congruence.
    - intros (z & A & B). destruct (Forall2_in_l _ _ _ _ F B) as (y & Y1 & Y2). exists y. split; auto. apply string_eqb_iff.
      destruct Y2 as (_ & Y2 & _). rewrite <- Y2, <- Ex. apply code_key; auto; [now apply L]. }
  destruct (existsb _ (countries c)) eqn:E.
  - rewrite (append_old country_cmp country_key country_ok country_cmp_key) by (auto; now apply X). cbn [bind].
    eexists. split; [reflexivity|]. destruct I. constructor;
    cbn [count_object with_countries w_pool w_vendor w_description w_license w_as w_countries w_next w_tree w_sig1 w_sig2
         vendor description license ases countries next_object]; auto.
  - destruct (append_new country_cmp country_key country_ok country_cmp_key (w_countries w) x L Ox)
      as (l' & -> & El & L'). { rewrite <- X. discriminate. }
    cbn [bind]. eexists. split; [reflexivity|]. destruct I. constructor;
    cbn [count_object with_countries w_pool w_vendor w_description w_license w_as w_countries w_next w_tree w_sig1 w_sig2
         vendor description license ases countries next_object]; auto.
    2:{ apply Forall_app. split; auto. }
    rewrite El. apply Forall2_app_one; auto. split; [|split; [|split]]; cbn [country_no the_code the_continent the_country_name].
    + congruence.
    + auto.
    + now rewrite Kx.
    + now rewrite Nx.
Qed.

(** Changing country objects *)
Lemma change_country_inv (f : country -> outcome country) (g : a_country -> a_country) id l m :
  Forall2 is_country l m -> Forall country_ok l ->
  (forall c x, is_country c x -> country_ok c ->
     match f c with Ok c' => is_country c' (g x) /\ c_code c' = c_code c | Err _ => g x = x | _ => True end) ->
  match change_country f id l with
  | Ok l' => Forall2 is_country l' (map (fun x => if (country_no x =? id)%nat then g x else x) m) /\
             map c_code l' = map c_code l
  | Err _ => True
  | _ => True
  end.
Proof.
  intros F O H. induction F as [|c x l m R F IH]; cbn [change_country map]; [split; auto|].
  inversion O as [|? ? O1 O2]; subst. specialize (IH O2). destruct R as (R1 & R2). rewrite <- R1.
  assert (R : is_country c x) by (split; auto).
  destruct (c_id c =? id)%nat.
  - specialize (H c x R O1). destruct (f c) as [c'| | |]; cbn [bind]; auto. destruct H as [H1 H2].
    destruct (change_country f id l) as [l'| | |]; cbn [bind]; auto. destruct IH as [I1 I2]. cbn [map]. rewrite H2, I2. auto.
  - cbn [bind]. destruct (change_country f id l) as [l'| | |]; cbn [bind]; auto. destruct IH as [I1 I2]. cbn [map]. rewrite I2. auto.
Qed.

Lemma change_country_same (f : country -> outcome country) id l : (forall c, exists k, f c = Err k) ->
  match change_country f id l with Ok l' => l' = l | Err _ => True | _ => False end.
Proof.
  intros H. induction l as [|c l IH]; cbn [change_country]; auto. destruct (c_id c =? id)%nat.
  - destruct (H c) as [k ->]. exact I.
  - cbn [bind]. destruct (change_country f id l); cbn [bind]; auto. now subst.
Qed.

Lemma countries_codes_ok l l' cap cap' : country_list_ok (mkOlist l cap) -> map c_code l' = map c_code l -> cap' = cap ->
  country_list_ok (mkOlist l' cap').
Proof.
  intros (A & B & C) E ->. cbn [ol_elems ol_cap] in *. split; [|split]; cbn [ol_elems ol_cap].
  - apply Forall_forall. intros x Hx. assert (I : In (c_code x) (map c_code l)) by (rewrite <- E; now apply in_map).
    apply in_map_iff in I as (y & E1 & E2). rewrite Forall_forall in A. specialize (A y E2). unfold country_ok in *. congruence.
  - replace (map country_key l') with (map country_key l); auto. unfold country_key.
    rewrite <- (map_map c_code code_number l), <- (map_map c_code code_number l'). now rewrite E.
  - apply (f_equal (@length _)) in E. rewrite !map_length in E. now rewrite E.
Qed.

Lemma with_countries_inv w c ss l m : winv w c ss -> Forall2 is_country l m ->
  map the_code m = map the_code (countries c) ->
  map c_code l = map c_code (ol_elems (w_countries w)) ->
  winv (with_countries w (mkOlist l (ol_cap (w_countries w))))
       (mkContents (vendor c) (description c) (license c) (ases c) m (next_object c)) ss.
Proof.
  intros I F E' E. destruct I. constructor;
    cbn [count_object with_countries w_pool w_vendor w_description w_license w_as w_countries w_next w_tree w_sig1 w_sig2
         vendor description license ases countries next_object ol_elems ol_cap]; auto.
  - destruct (w_countries w) as [l0 cap]. cbn [ol_elems ol_cap] in *. eapply countries_codes_ok; eauto.
  - rewrite Forall_forall in *. intros y Hy. assert (In (the_code y) (map the_code (countries c))) as J by (rewrite <- E'; now apply in_map).
    apply in_map_iff in J as (z & <- & Z). now apply i_valid0.
Qed.

Lemma name_country_inv w c ss id s : winv w c ss -> opt_cstr s ->
  match name_country w id s with
  | Ok w' => winv w' (means c (NameCountry id s)) ss
  | Err _ => False
  | _ => True
  end.
Proof.
  intros I H. unfold name_country.
  pose proof (change_country_inv (fun c => country_set_name c s)
    (fun x => mkACountry (country_no x) (the_code x) (the_continent x) s) id _ _ (i_countries _ _ _ I)
    (proj1 (i_countries_ok _ _ _ I))) as X.
  assert (NE : forall l k, change_country (fun c => country_set_name c s) id l <> Err k).
  { clear. induction l as [|c l IH]; intros k; cbn [change_country]; [discriminate|].
    assert (E : forall k, (if (c_id c =? id)%nat then country_set_name c s else Ok c) <> Err k).
    { intros k'. destruct (c_id c =? id)%nat; [|discriminate]. unfold country_set_name. destruct (c_name c), s; discriminate. }
    destruct (if (c_id c =? id)%nat then country_set_name c s else Ok c) as [c'| | |]; cbn [bind]; try discriminate; [|now specialize (E code)].
    destruct (change_country _ id l) as [l'| | |]; cbn [bind]; try discriminate. now specialize (IH code). }
  destruct (change_country (fun c => country_set_name c s) id (ol_elems (w_countries w))) as [l'|k| |] eqn:E; cbn [bind]; auto.
  - destruct X as [X1 X2].
    { intros y x (R1 & R2 & R3 & R4) O. unfold country_set_name.
      destruct (c_name y) as [|t|] eqn:Q; auto; (destruct s as [s|]; cbn [opt_cstr] in H; split; auto;
        unfold is_country; cbn [c_id c_code c_continent c_name country_no the_code the_continent the_country_name]; auto 12). }
    cbn [means]. apply with_countries_inv; auto.
    rewrite map_map. apply map_ext. intros y. now destruct (country_no y =? id)%nat.
  - now apply NE in E.
Qed.

Lemma with_same w : with_countries w (mkOlist (ol_elems (w_countries w)) (ol_cap (w_countries w))) = w.
Proof. destruct w as [? ? ? ? ? ? ? ? [? ?] ?]. reflexivity. Qed.

Lemma continent_inv w c ss id s : winv w c ss -> opt_cstr s ->
  match continent_country w id s with
  | Ok w' => winv w' (means c (SetContinent id s)) ss
  | Err _ => means c (SetContinent id s) = c
  | _ => True
  end.
Proof.
  intros I H. unfold continent_country.
  assert (D : (exists a b, s = Some [a; b]) \/
              (means c (SetContinent id s) = c /\ forall y, exists k, country_set_continent_code y s = Err k)).
  { destruct s as [[|a [|b [|? s]]]|]; eauto; right; (split; [reflexivity|]); intros y; eexists; reflexivity. }
  destruct D as [(a & b & ->)|[D1 D2]].
  - pose proof (change_country_inv (fun c => country_set_continent_code c (Some [a; b]))
      (fun x => mkACountry (country_no x) (the_code x) (Some [a; b]) (the_country_name x)) id _ _ (i_countries _ _ _ I)
      (proj1 (i_countries_ok _ _ _ I))) as X.
    assert (NE : forall l, exists l', change_country (fun c => country_set_continent_code c (Some [a; b])) id l = Ok l').
    { clear. induction l as [|c l [l' IH]]; cbn [change_country]; [eauto|]. rewrite IH.
      destruct (c_id c =? id)%nat; cbn [country_set_continent_code length Nat.eqb negb bind]; eauto. }
    destruct (NE (ol_elems (w_countries w))) as [l' E]. rewrite E in *. cbn [bind].
    destruct X as [X1 X2].
    { intros y x (R1 & R2 & R3 & R4) O. cbn [country_set_continent_code length Nat.eqb negb]. split; auto.
      cbn [opt_cstr] in H. inversion H as [|? ? Ha H']; subst. inversion H' as [|? ? Hb _]; subst.
      assert (T : two_letters (cc_copy [a; b])) by (split; cbn; auto).
      split; auto. split; auto. split; auto.
      cbn [the_continent c_continent]. split; auto. now rewrite cc_str_two. }
    cbn [means]. apply with_countries_inv; auto.
    rewrite map_map. apply map_ext. intros y. now destruct (country_no y =? id)%nat.
  - pose proof (change_country_same (fun c => country_set_continent_code c s) id (ol_elems (w_countries w)) D2) as X.
    destruct (change_country _ id (ol_elems (w_countries w))) as [l'| | |]; cbn [bind]; auto.
    subst l'. rewrite with_same, D1. exact I.
Qed.

Lemma with_tree_inv w c ss t : winv w c ss -> tree_ok t -> winv (with_tree w t) c ss.
Proof. intros [] T. constructor; cbn; auto. Qed.

Lemma add_net_ok t n : tree_ok t -> valid_network n -> tree_ok (fst (tree_add t n)).
Proof.
  intros T V. apply valid_net_wf in V. pose proof (tree_add_spec t n T V) as A.
  destruct (nt t (path n)); [now rewrite A|]. destruct A as (t' & -> & T' & _). exact T'.
Qed.
