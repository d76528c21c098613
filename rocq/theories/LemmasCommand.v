(** The lookup command on databases that were written. *)
From Coq Require Import String.
From Coq Require Import NArith ZArith List Bool Arith Lia ZifyBool ZifyNat ZifyN.
From Verif Require Import Base LemmasBase ModelAddress LemmasAddress ModelCountryCode ModelNetwork LemmasNetwork ModelNetworkList
  ModelTree LemmasTreeProps LemmasSpecNetwork ModelStringPool ModelObjects ModelText SpecText LemmasText LemmasTextAddr
  ModelFile ModelWriter ModelDatabase ModelExport SpecNetwork SpecStringPool SpecObjects SpecTree SpecExport SpecWriter
  LemmasObjects LemmasWriter LemmasDbProps LemmasLookupDb LemmasTwice LemmasExportText ModelBindings ModelCommand SpecCommand LemmasBindings.
Import ListNotations.
Open Scope N_scope.
Local Opaque cleanup.

Lemma parse_addr want s a p : address_parse want (Some s) = Ok (a, p) -> is_addr a.
Proof.
  intros E. destruct (N.ltb_spec (2 ^ 31 - 1) (N.of_nat (length s))) as [B|B].
  - unfold address_parse in E. replace (2 ^ 31 - 1 <? N.of_nat (length s)) with true in E by lia. discriminate.
  - rewrite address_parse_eq in E by auto. destruct (split_slash (firstn 48 s)) as [t q].
    destruct (pton t) as [[b f]|] eqn:P; [|discriminate]. destruct (pton_wf _ _ _ P) as [W _].
    assert (a = b); [|subst; now apply is_addr_wf].
    destruct want; cbn [negb] in E; [|congruence]. destruct q; [|congruence]. cbv zeta in E.
    destruct (_ <? _) in E; [discriminate|congruence].
Qed.

Lemma flag_bit f i : negb (N.land f (2 ^ i) =? 0) = N.testbit f i.
Proof.
  destruct (N.testbit f i) eqn:T.
  - destruct (N.eqb_spec (N.land f (2 ^ i)) 0) as [E|E]; [|reflexivity]. exfalso.
    assert (H : N.testbit (N.land f (2 ^ i)) i = true) by (now rewrite N.land_spec, T, N.pow2_bits_true).
    rewrite E, N.bits_0 in H. discriminate.
  - replace (N.land f (2 ^ i)) with 0; [reflexivity|]. symmetry. apply N.bits_inj_0. intros k. rewrite N.land_spec.
    destruct (N.eq_dec i k) as [<-|D]; [now rewrite T|]. now rewrite N.pow2_bits_false, andb_false_r.
Qed.

Lemma then_ok l m l' : m = Ok (l', None) -> then_ (printed l) m = Ok (l ++ l', None).
Proof. intros ->. reflexivity. Qed.

Lemma cc_text n : net_wf n -> get_country_code n = [] \/ cc_is_valid (Some (get_country_code n)) = true.
Proof.
  intros W. pose proof (w_cc n W) as C. revert C. unfold cc_ok, get_country_code, cc_str. destruct (n_cc n) as [a b]. cbn [fst snd]. intros C.
  destruct C as [[C _]|C]; [left; now subst a|]. right.
  destruct (cc_valid_nz _ _ C) as (A & B & _). replace (a =? 0) with false by lia. replace (b =? 0) with false by lia. exact C.
Qed.

Definition name_ok (s : option cstr) : Prop := match s with Some s => is_text s | None => True end.

Section Command.
Variables (ctz0 : nat) (held : network -> bool) (key1 key2 : option evp).
Variables (os : list call) (w : writer) (x : save) (w' : writer) (f : list N) (d : db).
Hypothesis Call : Forall call_ok os.
Hypothesis NoSave : Forall no_save os.
Hypothesis Prog : program ctz0 held key1 key2 os = Ok w.
Hypothesis Write : write_to ctz0 held key1 key2 w x = Ok (0%Z, w', f).
Hypothesis Size : N.of_nat (length f) < 2 ^ 32.
Hypothesis Now : s_now x < 2 ^ 64.
Hypothesis Open : db_open f = Ok d.
Variables (beyond : nat -> option N) (fuel : nat) (replaced : cstr -> cstr) (other : exc).
Hypothesis Hf : (129 <= fuel)%nat.

(** What a lookup gives: no error, and a valid network if any *)
Lemma lookup_result a : is_addr a -> lookup beyond d a fuel = UB \/
  exists n, lookup beyond d a fuel = Ok (n, 0%Z) /\ match n with Some y => net_wf y | None => True end.
Proof.
  intros A. destruct (lookup beyond d a fuel) as [[n r]|c| |] eqn:E; [right|right|now left|right].
  2, 3 : exfalso; destruct (lookup_exact _ _ _ _ _ _ _ _ _ _ Call Prog Write Size Now Open beyond fuel a A Hf) as (n & E' & _);
    [intros B z I L F; rewrite (lookup_host _ _ _ _ _ _ _ _ _ _ Call Prog Write Size Now Open beyond fuel a z A Hf B I L F) in E; discriminate
    |rewrite E in E'; discriminate].
  destruct (lookup_exact _ _ _ _ _ _ _ _ _ _ Call Prog Write Size Now Open beyond fuel a A Hf) as (n' & E' & P).
  { intros B z I L F. rewrite (lookup_host _ _ _ _ _ _ _ _ _ _ Call Prog Write Size Now Open beyond fuel a z A Hf B I L F) in E. discriminate. }
  rewrite E in E'. assert (n' = n) by congruence. assert (r = 0%Z) by congruence. subst n' r. exists n. split; auto.
  destruct n as [y|]; auto. destruct P as (z & (I & _) & -> & _).
  pose proof (stored_after_wf _ _ _ _ _ _ _ _ _ _ Call Prog Write Size Now Open z I) as W. clear -W.
  constructor; try apply W; auto.
  - cbn [as_read n_cc]. pose proof (w_cc z W) as C. destruct (N.eqb_spec (fst (n_cc z)) 0); auto. left. cbn. lia.
  - change (n_flags (as_read z)) with (n_flags z mod 2 ^ 16). pose proof (N.mod_lt (n_flags z) (2 ^ 16) ltac:(lia)). lia.
Qed.

Lemma py_lookup_ok s a p n : is_text s -> ~ In 0 s -> address_parse false (Some s) = Ok (a, p) ->
  lookup beyond d a fuel = Ok (n, 0%Z) -> py_lookup beyond fuel d s = Ok (inl n).
Proof.
  intros T Z P L. unfold py_lookup, py_arg. rewrite (text_utf8 s T).
  replace (existsb (fun c => c =? 0) s) with false.
  - cbn [andb negb pbind value bind]. unfold lookup_from_string. rewrite P, L. reflexivity.
  - symmetry. apply not_true_is_false. intros H. apply existsb_exists in H as (c & I & C). apply Z. replace 0 with c by lia. exact I.
Qed.

Hypothesis Order : countries_in_order (meaning os).
Hypothesis CNames : Forall (fun z => name_ok (the_country_name z)) (countries (meaning os)).
Hypothesis ANames : Forall (fun z => name_ok (the_name z)) (ases (meaning os)).

Lemma show_country_ok y : net_wf y -> exists l, show_country other d y = Ok (l, None) /\
  match get_country_code y with
  | [] => l = []
  | code => exists s, country_shown (meaning os) code s /\ l = [line (txt "Country") s]
  end.
Proof.
  intros W. unfold show_country, py_country_code, py_text. destruct (cc_text y W) as [E|V].
  - rewrite E. exists []. auto.
  - set (c := get_country_code y) in *. clearbody c. destruct (cc_valid_two c V) as (a & b & -> & A & B & _).
    rewrite ascii_utf8 by (repeat constructor; clear -A B; lia). cbn [value with_ bind].
    unfold py_get_country, py_arg. rewrite ascii_utf8 by (repeat constructor; clear -A B; lia).
    replace (existsb (fun c => c =? 0) [a; b]) with false by (cbn [existsb]; clear -A B; lia). cbn [andb negb pbind value bind].
    destruct (written_get_country _ _ _ _ _ _ _ _ _ _ Call Prog Write Size Now Open Order) as (G1 & G2 & _).
    destruct (in_dec (list_eq_dec N.eq_dec) [a; b] (map the_code (countries (meaning os)))) as [I|I].
    + apply in_map_iff in I as (z & E & I). destruct (G1 z I) as (c & G & _ & Nm). rewrite E in G. rewrite G. cbn [value with_ bind].
      unfold py_country_name. rewrite Nm. cbn [bind]. set (s := match the_country_name z with Some s => s | None => [] end).
      assert (U : utf8 s = true).
      { rewrite Forall_forall in CNames. specialize (CNames z I). unfold s. destruct (the_country_name z); [now apply text_utf8|reflexivity]. }
      unfold py_text. rewrite U. cbn [pbind value bind with_]. eexists. split; [reflexivity|]. exists s. split; [|reflexivity].
      left. exists z. auto.
    + rewrite G2; auto.
      * cbn [value with_ bind]. eexists. split; [reflexivity|]. exists [a; b]. split; [right; auto|reflexivity].
      * rewrite country_code_valid, V. discriminate.
Qed.

Lemma show_as_ok y : n_asn y < 2 ^ 31 -> exists l, show_as replaced d y = Ok (l, None) /\
  (n_asn y = 0 /\ l = [] \/ n_asn y <> 0 /\ exists s, system_shown (meaning os) (n_asn y) s /\ l = [line (txt "Autonomous System") s]).
Proof.
  intros B. unfold show_as, py_asn. destruct (N.eqb_spec (n_asn y) 0) as [E|E]; [exists []; auto|].
  unfold py_get_as. replace (2 ^ 31 <=? n_asn y) with false by (clear -B; lia).
  destruct (written_get_as _ _ _ _ _ _ _ _ _ _ Call Prog Write Size Now Open) as [G1 G2].
  assert (D : plain_decimal (dec (n_asn y)) (n_asn y)) by (apply dec_plain; clear -B; lia).
  destruct (in_dec N.eq_dec (n_asn y) (map the_number (ases (meaning os)))) as [I|I].
  - apply in_map_iff in I as (z & Ez & I). destruct (G1 z I) as (r & G & Nr & Nm). rewrite Ez in G, Nr. rewrite G. cbn [value with_ bind].
    eexists. split; [reflexivity|]. right. split; auto. eexists. split; [|reflexivity]. exists (dec (n_asn y)). split; auto.
    left. exists z. split; auto. split; auto. unfold py_as_str. rewrite Nr, Nm. unfold int_text, py_shown.
    replace (n_asn y <? 2 ^ 31) with true by (clear -B; lia).
    replace (utf8 _) with true; [unfold or_empty; destruct (the_name z); reflexivity|].
    rewrite Forall_forall in ANames. specialize (ANames z I). destruct (the_name z); [symmetry; now apply text_utf8|reflexivity].
  - rewrite (G2 _ I). cbn [Z.eqb Pos.eqb value with_ bind]. eexists. split; [reflexivity|]. right. split; auto. eexists.
    split; [|reflexivity]. exists (dec (n_asn y)). split; auto.
Qed.

Lemma show_ok s y z : net_wf y -> n_asn z < 2 ^ 31 ->
  get_country_code y = get_country_code z -> n_asn y = n_asn z -> n_flags y = n_flags z mod 2 ^ 16 ->
  exists l, show replaced other d s y = Ok (l, None) /\ shown_for (meaning os) s y z l.
Proof.
  intros W B C A F. unfold show.
  destruct (show_country_ok y W) as (lc & Ec & Sc). rewrite <- A in B. destruct (show_as_ok y B) as (la & Ea & Sa).
  assert (V : valid_network y) by now apply valid_net_wf.
  destruct (net_text_word y V) as [[_ Wd] Rd]. unfold py_network_str, py_text.
  rewrite ascii_utf8 by (eapply Forall_impl; [|exact Wd]; cbv beta; clear; lia). cbn [value with_ bind printed].
  rewrite Ec, Ea.
  assert (Fl : forall i, i < 16 -> forall l, show_flag y (2 ^ i) l = Ok (if N.testbit (n_flags z) i then [line l (txt "yes")] else [], None)).
  { intros i I l. unfold show_flag, py_has_flag, has_flag. rewrite flag_bit, F, N.mod_pow2_bits_low by exact I. reflexivity. }
  change 1 with (2 ^ 0) at 1. change (show_flag y 2) with (show_flag y (2 ^ 1)). change (show_flag y 4) with (show_flag y (2 ^ 2)).
  change (show_flag y 8) with (show_flag y (2 ^ 3)). rewrite !Fl by (clear; lia). cbn [then_ bind printed fst snd app].
  eexists. split; [reflexivity|]. exists (net_text y), lc, la. split.
  - f_equal. f_equal. f_equal. f_equal. unfold flag_labels. cbn [filter fst snd].
    destruct (N.testbit (n_flags z) 0), (N.testbit (n_flags z) 1), (N.testbit (n_flags z) 2), (N.testbit (n_flags z) 3); reflexivity.
  - split; [exact Rd|]. rewrite <- C, <- A. auto.
Qed.

Hypothesis Numbers : forall z, In z (given os) -> n_asn z < 2 ^ 31.

Definition result_for (s : cstr) (r : option (list cstr)) : Prop :=
  exists a p, address_parse false (Some s) = Ok (a, p) /\
  match r with
  | None => lookup beyond d a fuel = Ok (None, 0%Z)
  | Some lines => exists y z, lookup beyond d a fuel = Ok (Some y, 0%Z) /\ member y (num a) /\
      most_specific (given os) (num a) z /\ shown_for (meaning os) s y z lines
  end.

Definition usable (s : cstr) : Prop :=
  is_text s /\ ~ In 0 s /\ exists a p, address_parse false (Some s) = Ok (a, p) /\ lookup beyond d a fuel <> UB.

Lemma handle_lookup_ok addresses : Forall usable addresses -> forall ret lines nothing,
  exists results,
    Forall2 result_for addresses results /\
    handle_lookup beyond fuel replaced other d ret addresses lines nothing =
      Ok (mkEnded (if existsb (fun r => match r with None => true | _ => false end) results then 1 else ret)
           (lines ++ all_lines results) (nothing ++ none_for addresses results)).
Proof.
  induction 1 as [|s addresses (T & Z & a & p & P & NU) _ IH]; intros ret lines nothing.
  - exists []. split; [constructor|]. cbn [handle_lookup existsb]. unfold all_lines, none_for. cbn. now rewrite !app_nil_r.
  - pose proof (parse_addr _ _ _ _ P) as A. destruct (lookup_result a A) as [U|(n & L & W)]; [contradiction|].
    cbn [handle_lookup]. rewrite (py_lookup_ok _ _ _ _ T Z P L). cbn [bind]. destruct n as [y|].
    + destruct (given_sound _ _ _ _ _ _ _ _ _ _ Call NoSave Prog Write Size Now Open _ _ _ _ _ A Hf L) as (_ & M & z & Mz & C1 & C2 & C3).
      destruct (show_ok s y z W (Numbers z (proj1 Mz)) C1 C2 C3) as (l & E & Sh). rewrite E. cbn [bind].
      destruct (IH ret (lines ++ l) nothing) as (rs & F2 & Q). exists (Some l :: rs). split.
      * constructor; auto. exists a, p. split; auto. exists y, z. auto.
      * rewrite Q. cbn [existsb orb]. unfold all_lines, none_for. cbn [flat_map combine filter snd map]. now rewrite <- app_assoc.
    + destruct (IH 1 lines (nothing ++ [s])) as (rs & F2 & Q). exists (None :: rs). split.
      * constructor; auto. exists a, p. auto.
      * rewrite Q. cbn [existsb orb]. unfold all_lines, none_for. cbn [flat_map combine filter snd map fst app].
        rewrite <- app_assoc. cbn [app]. destruct (existsb _ rs); reflexivity.
Qed.

Lemma lookup_command_ok addresses : Forall usable addresses ->
  exists results, Forall2 result_for addresses results /\
    lookup_command beyond fuel replaced other d addresses =
      Ok (mkEnded (if existsb (fun r => match r with None => true | _ => false end) results then 1 else 0)
           (all_lines results) (none_for addresses results)).
Proof.
  intros U. destruct (handle_lookup_ok addresses U 0 [] []) as (rs & F2 & Q). exists rs. split; [exact F2|exact Q].
Qed.
End Command.

Lemma lookup_invalid beyond fuel replaced other d s rest : is_text s -> ~ In 0 s -> address_parse false (Some s) = Err 1 ->
  lookup_command beyond fuel replaced other d (s :: rest) = Ok (mkEnded 1 [] []).
Proof.
  intros T Z P. unfold lookup_command. cbn [handle_lookup]. unfold py_lookup, py_arg. rewrite (text_utf8 s T).
  replace (existsb (fun c => c =? 0) s) with false.
  - cbn [andb negb pbind value bind]. unfold lookup_from_string. rewrite P. reflexivity.
  - symmetry. apply not_true_is_false. intros H. apply existsb_exists in H as (c & I & C). apply Z. replace 0 with c by lia. exact I.
Qed.
