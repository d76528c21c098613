(** Iterators and listings. *)
From Coq Require Import String.
From Coq Require Import NArith ZArith List Bool Arith Lia ZifyBool ZifyNat ZifyN.
From Verif Require Import Base LemmasBase ModelAddress ModelCountryCode ModelNetwork ModelNetworkList ModelStringPool ModelObjects ModelText SpecText
  ModelFile ModelDatabase ModelEnum ModelExport SpecEnum SpecNetwork SpecObjects LemmasObjects LemmasEnum LemmasEnumDb LemmasSpecNetwork LemmasNetwork LemmasText LemmasExportText
  SpecExport LemmasExport ModelBindings ModelCommand LemmasBindings ModelList SpecCommand SpecList.
Import ListNotations.
Open Scope N_scope.

(** ** The mode does not change *)
Ltac split_do H := repeat
  match type of H with
  | context [bind ?m _] => let q := fresh "Q" in destruct m as [[] | | |] eqn:q; cbn [bind] in H; try discriminate H
  end.

Lemma collect_mode beyond d n fuel k : forall e e' r, collect beyond d n fuel e k = Ok (e', r) -> en_mode e' = en_mode e.
Proof.
  induction k as [|k IH]; intros e e' r H; cbn [collect] in H; [discriminate|].
  destruct (next_inner beyond d false e fuel) as [[[e1 x] r1]| | |] eqn:Q; try discriminate. cbn [bind] in H.
  apply next_inner_mode in Q as [M _]. destruct (negb (r1 =? 0)%Z).
  - destruct x as [x|]; [|discriminate]. destruct (list_clear (en_subnets e1)) as [l| | |]; try discriminate. cbn [bind] in H. injection H as <- _. exact M.
  - destruct x as [x|]; [|injection H as <- _; exact M]. destruct (is_subnet n x).
    + destruct (list_push (en_subnets e1) x) as [l| | |]; try discriminate. cbn [bind] in H. apply IH in H. rewrite H. exact M.
    + destruct (list_push (en_stack e1) x) as [l| | |]; try discriminate. cbn [bind] in H. injection H as <- _. exact M.
Qed.
Lemma next_flattened_mode beyond d fuel k : forall e e' x r, next_flattened beyond d fuel e k = Ok (e', x, r) -> en_mode e' = en_mode e.
Proof.
  induction k as [|k IH]; intros e e' x r H; cbn [next_flattened] in H; [discriminate|].
  destruct (next_inner beyond d true e fuel) as [[[e1 y] r1]| | |] eqn:Q; try discriminate. cbn [bind] in H.
  apply next_inner_mode in Q as [M _]. destruct (negb (r1 =? 0)%Z); [injection H as <- _ _; exact M|].
  destruct y as [y|]; [|injection H as <- _ _; exact M].
  destruct (collect beyond d y fuel e1 fuel) as [[e2 r2]| | |] eqn:Q; try discriminate. cbn [bind] in H.
  apply collect_mode in Q. destruct (negb (r2 =? 0)%Z); [injection H as <- _ _; congruence|].
  destruct (list_empty (en_subnets e2)).
  - destruct (list_clear (en_subnets e2)) as [l| | |]; try discriminate. cbn [bind] in H. injection H as <- _ _. cbn [with_lists en_mode]. congruence.
  - destruct (network_exclude_list y (en_subnets e2) fuel) as [ex| | |]; try discriminate.
    + destruct (list_merge (en_stack e2) (en_subnets e2)) as [s1| | |]; try discriminate. cbn [bind] in H.
      destruct (list_merge s1 ex) as [s2| | |]; try discriminate. cbn [bind] in H.
      destruct (list_clear (en_subnets e2)) as [l| | |]; try discriminate. cbn [bind] in H. apply IH in H. rewrite H. cbn [with_lists en_mode]. congruence.
    + destruct (list_clear (en_subnets e2)) as [l| | |]; try discriminate. cbn [bind] in H. injection H as <- _ _. cbn [with_lists en_mode]. congruence.
Qed.
Lemma add_gap_mode e a b fuel e' r : add_gap e a b fuel = Ok (e', r) -> en_mode e' = en_mode e.
Proof. unfold add_gap. destruct (list_summarize a b (en_stack e) fuel); try discriminate; intros [= <- _]; reflexivity. Qed.
Lemma pop_stack_mode e e' x : pop_stack e = Ok (e', x) -> en_mode e' = en_mode e.
Proof. unfold pop_stack. destruct (list_pop_first (en_stack e)) as [[y l]| | |]; try discriminate. cbn [bind]. intros [= <- _]. reflexivity. Qed.
Lemma finish_family_mode e f fuel e' r : finish_family e f fuel = Ok (e', r) -> en_mode e' = en_mode e.
Proof.
  unfold finish_family. destruct (addr_all_zeroes _); [intros [= <- _]; reflexivity|].
  set (m := if (_ <=? 0)%Z then _ else _). destruct m as [[e1 r1]| | |] eqn:Q; try discriminate. cbn [bind].
  assert (M : en_mode e1 = en_mode e).
  { unfold m in Q. destruct (_ <=? 0)%Z; [now apply add_gap_mode in Q|injection Q as <- _; reflexivity]. }
  destruct (negb (r1 =? 0)%Z); intros [= <- _]; [exact M|]. destruct f; exact M.
Qed.
Lemma finish_mode e fuel e' x r : finish e fuel = Ok (e', x, r) -> en_mode e' = en_mode e.
Proof.
  unfold finish. destruct (finish_family e AF_INET6 fuel) as [[e1 r1]| | |] eqn:Q; try discriminate. cbn [bind]. apply finish_family_mode in Q.
  destruct (negb (r1 =? 0)%Z); [intros [= <- _ _]; exact Q|].
  destruct (finish_family e1 AF_INET fuel) as [[e2 r2]| | |] eqn:Q2; try discriminate. cbn [bind]. apply finish_family_mode in Q2.
  destruct (negb (r2 =? 0)%Z); [intros [= <- _ _]; congruence|].
  destruct (pop_stack e2) as [[e3 y]| | |] eqn:Q3; try discriminate. cbn [bind]. apply pop_stack_mode in Q3. intros [= <- _ _]. congruence.
Qed.
Lemma bogon_loop_mode beyond d fuel k : forall e e' x r, bogon_loop beyond d fuel e k = Ok (e', x, r) -> en_mode e' = en_mode e.
Proof.
  induction k as [|k IH]; intros e e' x r H; cbn [bogon_loop] in H; [discriminate|].
  destruct (next_inner beyond d true e fuel) as [[[e1 y] r1]| | |] eqn:Q; try discriminate. cbn [bind] in H.
  apply next_inner_mode in Q as [M _]. destruct (negb (r1 =? 0)%Z); [injection H as <- _ _; exact M|].
  destruct y as [n|]; [|apply finish_mode in H; congruence].
  destruct (length (get_country_code n) =? 0)%nat; [apply IH in H; congruence|]. cbv zeta in H.
  destruct (0 <=? _)%Z; [apply IH in H; congruence|].
  set (m := if (_ <=? 0)%Z then _ else _) in H. destruct m as [[e2 r2]| | |] eqn:Q; try discriminate. cbn [bind] in H.
  assert (M2 : en_mode e2 = en_mode e).
  { unfold m in Q. destruct (_ <=? 0)%Z; [apply add_gap_mode in Q; congruence|injection Q as <- _; exact M]. }
  destruct (negb (r2 =? 0)%Z); [injection H as <- _ _; exact M2|].
  set (e3 := match n_family n with AF_INET => _ | AF_INET6 => _ end) in H.
  assert (M3 : en_mode e3 = en_mode e) by (unfold e3; destruct (n_family n); exact M2).
  destruct (pop_stack e3) as [[e4 y]| | |] eqn:Q4; try discriminate. cbn [bind] in H. apply pop_stack_mode in Q4.
  destruct y as [y|]; [injection H as <- _ _; congruence|]. apply IH in H. congruence.
Qed.
Lemma next_network_mode beyond d fuel old e e' x r : next_network beyond d fuel old e = Ok (e', x, r) -> en_mode e' = en_mode e.
Proof.
  unfold next_network. destruct (en_mode e) eqn:M; [| intros [= <- _ _]; exact M | intros [= <- _ _]; exact M|].
  - destruct (en_flatten e); intros H; [apply next_flattened_mode in H|apply next_inner_mode in H as [H _]]; congruence.
  - unfold next_bogon. intros H. destruct (pop_stack e) as [[e1 y]| | |] eqn:Q; try discriminate. cbn [bind] in H. apply pop_stack_mode in Q.
    destruct y; [injection H as <- _ _; congruence|]. apply bogon_loop_mode in H. congruence.
Qed.
Lemma next_as_loop_mode d k : forall e e' x r, next_as_loop d e k = Ok (e', x, r) -> en_mode e' = en_mode e.
Proof.
  induction k as [|k IH]; intros e e' x r H; cbn [next_as_loop] in H; destruct (en_as_index e <? snd (d_as d));
    try discriminate; try (injection H as <- _ _; reflexivity).
  cbv zeta in H. destruct (fetch_as d (en_as_index e)) as [a| | |]; try discriminate.
  - destruct (as_match_string a _); [injection H as <- _ _; reflexivity|]. apply IH in H. exact H.
  - injection H as <- _ _. reflexivity.
Qed.
Lemma next_as_mode d e e' x r : next_as d e = Ok (e', x, r) -> en_mode e' = en_mode e.
Proof. unfold next_as. destruct (en_mode e) eqn:M; try (intros [= <- _ _]; exact M). intros H. apply next_as_loop_mode in H. congruence. Qed.
Lemma next_country_mode d e e' x r : next_country d e = Ok (e', x, r) -> en_mode e' = en_mode e.
Proof.
  unfold next_country. destruct (en_mode e) eqn:M; try (intros [= <- _ _]; exact M).
  destruct (_ <? _); [|intros [= <- _ _]; exact M]. cbv zeta. destruct (fetch_country d _); try discriminate; intros [= <- _ _]; exact M.
Qed.

(** ** Loops *)
Section Loops.
Variables (beyond : nat -> option N) (fuel : nat) (d : db).

Definition of_networks (e : enum) : Prop := en_mode e = Networks \/ en_mode e = Bogons.
Lemma py_next_network e e' x : of_networks e -> next_network beyond d fuel None e = Ok (e', x, 0%Z) ->
  py_next beyond fuel d e = value (e', option_map INet x).
Proof.
  intros M H. pose proof (next_network_mode _ _ _ _ _ _ _ _ H) as M'. unfold py_next, checked. rewrite H. cbn [Z.eqb value pbind bind].
  destruct x as [n|]; [reflexivity|]. unfold next_as. unfold next_country.
  destruct M as [M|M]; rewrite M', M; cbn [Z.eqb value pbind bind]; rewrite M', M; reflexivity.
Qed.
Lemma py_next_as e e' x : en_mode e = Ases -> next_as d e = Ok (e', x, 0%Z) -> py_next beyond fuel d e = value (e', option_map IAs x).
Proof.
  intros M H. pose proof (next_as_mode _ _ _ _ _ H) as M'. unfold py_next, checked, next_network. rewrite M. cbn [Z.eqb value pbind bind]. rewrite H.
  cbn [Z.eqb value pbind bind]. destruct x as [n|]; [reflexivity|]. unfold next_country. rewrite M', M. reflexivity.
Qed.
Lemma py_next_country e e' x : en_mode e = Countries -> next_country d e = Ok (e', x, 0%Z) -> py_next beyond fuel d e = value (e', option_map ICountry x).
Proof.
  intros M H. unfold py_next, checked, next_network. rewrite M. cbn [Z.eqb value pbind bind]. unfold next_as. rewrite M.
  cbn [Z.eqb value pbind bind]. rewrite H. cbn [Z.eqb value pbind bind]. destruct x; reflexivity.
Qed.

(** A loop that prints something for each object *)
Lemma loop {A} (next : enum -> outcome (enum * option A * Z)) (ob : A -> item) (inv : enum -> Prop)
    (Next : forall e e' x, inv e -> next e = Ok (e', x, 0%Z) -> py_next beyond fuel d e = value (e', option_map ob x))
    (Inv : forall e e' x, inv e -> next e = Ok (e', x, 0%Z) -> inv e')
    body (g : A -> list cstr) : forall L e k, inv e -> enumerates next e L -> (length L < k)%nat ->
  (forall a, In a L -> body (ob a) = printed (g a)) -> py_for beyond fuel d k e body = printed (flat_map g L).
Proof.
  induction L as [|a L IH]; intros e k V (e1 & e2 & R & X) K B; (destruct k as [|k]; [cbn [length] in K; lia|]); cbn [py_for].
  - inversion R; subst. rewrite (Next _ _ _ V X). reflexivity.
  - inversion R as [|? e3 ? ? ? H R']; subst. rewrite (Next _ _ _ V H). cbn [value with_ bind option_map]. rewrite B by (now left).
    rewrite (IH e3 k); [reflexivity|now apply (Inv e e3 (Some a))|exists e1, e2; auto|cbn [length] in K; lia|].
    intros b Ib. apply B. now right.
Qed.
Lemma for_networks body g L e k : of_networks e -> enumerates (next_network beyond d fuel None) e L -> (length L < k)%nat ->
  (forall n, In n L -> body (INet n) = printed (g n)) -> py_for beyond fuel d k e body = printed (flat_map g L).
Proof.
  apply loop; [exact py_next_network|]. intros e0 e1 x M H. apply next_network_mode in H. unfold of_networks in *. now rewrite H.
Qed.
Lemma for_ases body g L e k : en_mode e = Ases -> enumerates (next_as d) e L -> (length L < k)%nat ->
  (forall n, In n L -> body (IAs n) = printed (g n)) -> py_for beyond fuel d k e body = printed (flat_map g L).
Proof. apply (loop (next_as d) IAs (fun e => en_mode e = Ases)); [exact py_next_as|]. intros e0 e1 x M H. apply next_as_mode in H. congruence. Qed.
Lemma for_countries body g L e k : en_mode e = Countries -> enumerates (next_country d) e L -> (length L < k)%nat ->
  (forall n, In n L -> body (ICountry n) = printed (g n)) -> py_for beyond fuel d k e body = printed (flat_map g L).
Proof. apply (loop (next_country d) ICountry (fun e => en_mode e = Countries)); [exact py_next_country|]. intros e0 e1 x M H. apply next_country_mode in H. congruence. Qed.

Lemma all_networks_ok : forall L e k, of_networks e -> enumerates (next_network beyond d fuel None) e L -> (length L < k)%nat ->
  all_networks beyond fuel d k e = value L.
Proof.
  induction L as [|a L IH]; intros e k V (e1 & e2 & R & X) K; (destruct k as [|k]; [cbn [length] in K; lia|]); cbn [all_networks].
  - inversion R; subst. rewrite (py_next_network _ _ _ V X). reflexivity.
  - inversion R as [|? e3 ? ? ? H R']; subst. rewrite (py_next_network _ _ _ V H). cbn [value pbind bind option_map].
    rewrite (IH e3 k); [reflexivity| |exists e1, e2; auto|cbn [length] in K; lia].
    apply next_network_mode in H. unfold of_networks in *. now rewrite H.
Qed.
Lemma all_codes_ok : forall L e k, en_mode e = Countries -> enumerates (next_country d) e L -> (length L < k)%nat ->
  Forall (fun c => utf8 (cc_str (c_code c)) = true) L ->
  all_codes beyond fuel d k e = value (map (fun c => cc_str (c_code c)) L).
Proof.
  induction L as [|a L IH]; intros e k V (e1 & e2 & R & X) K F; (destruct k as [|k]; [cbn [length] in K; lia|]); cbn [all_codes].
  - inversion R; subst. rewrite (py_next_country _ _ _ V X). reflexivity.
  - apply Forall_cons_iff in F as [F1 F]. inversion R as [|? e3 ? ? ? H R']; subst. rewrite (py_next_country _ _ _ V H). cbn [value pbind bind option_map].
    unfold py_text. rewrite F1. cbn [value pbind bind].
    rewrite (IH e3 k); [reflexivity| |exists e1, e2; auto|cbn [length] in K; lia|exact F].
    apply next_country_mode in H. congruence.
Qed.
End Loops.

(** ** Searching *)
Lemma option_number_zero f : (option_number f =? 0)%Z = match f with None => true | _ => false end.
Proof. destruct f as [[|]|]; reflexivity. Qed.
Lemma family_wanted f n (Q : Prop) l : the_family l = option_number f ->
  (the_family l = 0%Z \/ the_family l = match n_family n with AF_INET => 2%Z | AF_INET6 => 10%Z end) <-> of_family f n.
Proof. intros ->. destruct f as [[|]|], (n_family n) eqn:F; cbn [option_number of_family]; rewrite ?F; split; intros; auto; try tauto; try congruence; destruct H; discriminate. Qed.

Lemma search_as f asn : asn < 2 ^ 32 -> exists l,
  py_search_networks None (Some [Z.of_N asn]) 0 (option_number f) false = value (configured Networks false l) /\
  Forall setting_ok l /\ forall n, wanted l n <-> of_family f n /\ n_asn n = asn.
Proof.
  intros B. exists (SetAsns (mkOlist [as_new 0 asn] 1024) :: family_setting f). split; [|split].
  - unfold py_search_networks. cbn [value pbind bind py_longs]. unfold py_long.
    replace (_ && _) with true by lia. cbn [value pbind bind]. replace (Z.to_N (Z.of_N asn mod 2 ^ 32)) with asn.
    2 : { rewrite Z.mod_small by lia. lia. }
    cbn [add_asns]. rewrite N.mod_small by lia. rewrite option_number_zero. destruct f; reflexivity.
  - constructor; [exact Logic.I|]. destruct f; repeat constructor.
  - intros n. unfold wanted. rewrite (family_wanted f n True) by (destruct f as [[|]|]; reflexivity).
    assert (A : the_countries (SetAsns (mkOlist [as_new 0 asn] 1024) :: family_setting f) = None /\
      the_asns (SetAsns (mkOlist [as_new 0 asn] 1024) :: family_setting f) = Some [asn] /\
      the_flags (SetAsns (mkOlist [as_new 0 asn] 1024) :: family_setting f) = 0) by (destruct f; repeat split).
    destruct A as (-> & -> & ->). rewrite N.land_0_r. split; intros [F W]; split; auto.
    + destruct W as [(_ & ? & _)|[(c & ? & _)|[(a & E & I1)|?]]]; try discriminate; try lia. injection E as <-. destruct I1 as [<-|[]]. reflexivity.
    + right. right. left. eexists. split; [reflexivity|]. left. congruence.
Qed.
Lemma search_flags f flags : flags <> 0 -> exists l,
  py_search_networks None None flags (option_number f) false = value (configured Networks false l) /\
  Forall setting_ok l /\ forall n, wanted l n <-> of_family f n /\ N.land (n_flags n) flags <> 0.
Proof.
  intros B. exists (SetFlag flags :: family_setting f). split; [|split].
  - unfold py_search_networks. cbn [value pbind bind]. replace (flags =? 0) with false by lia. rewrite option_number_zero. destruct f; reflexivity.
  - constructor; [exact Logic.I|]. destruct f; repeat constructor.
  - intros n. unfold wanted. rewrite (family_wanted f n True) by (destruct f as [[|]|]; reflexivity).
    assert (A : the_countries (SetFlag flags :: family_setting f) = None /\ the_asns (SetFlag flags :: family_setting f) = None /\
      the_flags (SetFlag flags :: family_setting f) = flags) by (destruct f; repeat split; cbn; apply N.lor_0_l).
    destruct A as (-> & -> & ->). split; intros [F W]; split; auto.
    destruct W as [(_ & _ & ?)|[(c & ? & _)|[(a & ? & _)|?]]]; try discriminate; auto; lia.
Qed.
Lemma search_cc f code : cc_is_valid (Some code) = true -> exists l,
  py_search_networks (Some [code]) None 0 (option_number f) false = value (configured Networks false l) /\
  Forall setting_ok l /\ forall n, wanted l n <-> of_family f n /\ get_country_code n = code.
Proof.
  intros V. destruct (add_codes_all [code] ltac:(constructor; auto)) as (xs & E & T & X & Add).
  destruct xs as [|x [|]]; try discriminate. injection E as E.
  exists (SetCountries (mkOlist [x] 1024) :: family_setting f). split; [|split].
  - unfold py_search_networks. rewrite Add. cbn [append_all].
    change (olist_append country_cmp olist_new x) with (Ok (mkOlist [x] 1024) : outcome (olist country)).
    cbn [value pbind bind]. rewrite option_number_zero. destruct f; reflexivity.
  - constructor; [exact X|]. destruct f; repeat constructor.
  - intros n. unfold wanted. rewrite (family_wanted f n True) by (destruct f as [[|]|]; reflexivity).
    assert (A : the_countries (SetCountries (mkOlist [x] 1024) :: family_setting f) = Some [code] /\
      the_asns (SetCountries (mkOlist [x] 1024) :: family_setting f) = None /\
      the_flags (SetCountries (mkOlist [x] 1024) :: family_setting f) = 0) by (destruct f; repeat split; cbn; now rewrite E).
    destruct A as (-> & -> & ->). rewrite N.land_0_r. split; intros [F W]; split; auto.
    + destruct W as [(? & _)|[(c & Q & _ & I1)|[(a & ? & _)|?]]]; try discriminate; try lia. injection Q as <-. destruct I1 as [<-|[]]. reflexivity.
    + right. left. eexists. split; [reflexivity|]. split; [|left; congruence]. rewrite W. intros Q. rewrite Q in V. discriminate V.
Qed.

(** ** Lines *)
Lemma net_text_utf8 n : valid_network n -> utf8 (net_text n) = true.
Proof.
  intros V. destruct (net_text_word n V) as [[_ W] _]. apply ascii_utf8. eapply Forall_impl; [|exact W]. cbv beta. intros. lia.
Qed.
Lemma tag_version name f : tag_of name (option_number f) = name ++ txt "v" ++ version f.
Proof. destruct f as [[|]|]; reflexivity. Qed.
Lemma flat_map_single {A B} (g : A -> B) l : flat_map (fun a => [g a]) l = map g l.
Proof. induction l as [|a l IH]; [reflexivity|]. cbn. now rewrite IH. Qed.

Lemma listing_lists fmt name f L : Forall valid_network L -> lists fmt name f L (set_lines fmt name f (map net_text L)).
Proof. intros V. exists (map net_text L). destruct (texts_of L V). auto. Qed.
Lemma listing beyond fuel objects replaced d fmt name f L e : printable fmt f -> of_networks e ->
  enumerates (next_network beyond d fuel None) e L -> (length L < objects)%nat -> Forall valid_network L ->
  list_networks beyond fuel objects replaced d fmt name (option_number f) (value e) = printed (set_lines fmt name f (map net_text L)).
Proof.
  intros P M E K V.
  unfold list_networks. cbn [value with_ bind].
  rewrite (for_networks _ _ _ _ (fun n => [entry fmt name (option_number f) (net_text n)]) L e objects M E K).
  2 : { intros n I1. cbn [item_text]. unfold py_network_str, py_text. rewrite net_text_utf8 by (rewrite Forall_forall in V; auto). reflexivity. }
  rewrite flat_map_single. unfold header, entry, footer, set_lines. cbv zeta. destruct fmt.
  - rewrite tag_version. rewrite option_number_zero. cbn [printable] in P. destruct f as [f|]; [|congruence].
    rewrite map_map. cbn [printed then_ bind fst snd app]. rewrite app_nil_r. destruct f; reflexivity.
  - cbn [printed then_ bind fst snd app]. rewrite app_nil_r. reflexivity.
  - rewrite tag_version, map_map. reflexivity.
  - destruct P.
Qed.

(** ** What is refused *)
Lemma invalid_search code flags family flatten asns : cc_is_valid (Some code) = false ->
  py_search_networks (Some [code]) asns flags family flatten = raise ValueError.
Proof.
  intros V. unfold py_search_networks. cbn [add_codes]. unfold country_new. rewrite V. reflexivity.
Qed.
Lemma list_refused beyond fuel objects replaced d fam :
  (forall code, cc_is_valid (Some code) = false ->
     list_by_cc beyond fuel objects replaced d Plain (option_number fam) code = Ok (mkEnded 2 [] []) /\
     list_by_cc beyond fuel objects replaced d Nftables (option_number fam) code =
       Ok (mkEnded 2 [txt "define " ++ code ++ txt "v" ++ version fam ++ txt " = {"] [])) /\
  (forall fmt, list_by_flags beyond fuel objects replaced d fmt (option_number fam) false false false false = Ok (mkEnded 2 [] [])) /\
  (forall asn, list_by_as beyond fuel objects replaced d Ipset 0 asn = Ok (mkEnded 2 [] []) /\
     list_by_as beyond fuel objects replaced d XtGeoip (option_number fam) asn = Ok (mkEnded 1 [] [])) /\
  (forall code, list_by_cc beyond fuel objects replaced d Ipset 0 code = Ok (mkEnded 2 [] []) /\
     list_by_cc beyond fuel objects replaced d XtGeoip (option_number fam) code = Ok (mkEnded 1 [] [])) /\
  (forall p s a e, p || s || a || e = true -> list_by_flags beyond fuel objects replaced d Ipset 0 p s a e = Ok (mkEnded 2 [] []) /\
     list_by_flags beyond fuel objects replaced d XtGeoip (option_number fam) p s a e = Ok (mkEnded 1 [] [])) /\
  list_bogons beyond fuel objects replaced d Ipset 0 = Ok (mkEnded 2 [] []) /\
  list_bogons beyond fuel objects replaced d XtGeoip (option_number fam) = Ok (mkEnded 1 [] []).
Proof.
  split.
  { intros code V. unfold list_by_cc. rewrite !invalid_search by exact V. split; [reflexivity|]. unfold list_networks, header. rewrite tag_version, <- !app_assoc. reflexivity. }
  split; [intros; reflexivity|]. split; [intros; split; reflexivity|]. split; [intros; split; reflexivity|]. split; [|split; reflexivity].
  intros p s a e H. unfold list_by_flags. destruct p, s, a, e; try discriminate; split; reflexivity.
Qed.
Lemma list_cut beyond fuel objects replaced d fam asn : (- 2 ^ 63 <= asn < 2 ^ 63)%Z ->
  list_by_as beyond fuel objects replaced d Plain fam asn = list_by_as beyond fuel objects replaced d Plain fam (asn mod 2 ^ 32)%Z.
Proof.
  intros B. assert (E : py_search_networks None (Some [asn]) 0 fam false = py_search_networks None (Some [asn mod 2 ^ 32]%Z) 0 fam false).
  { unfold py_search_networks. cbn [py_longs]. unfold py_long. rewrite Z.mod_mod by lia.
    pose proof (Z.mod_pos_bound asn (2 ^ 32) ltac:(lia)). replace (_ && _) with true by lia. replace (_ && _) with true by lia. reflexivity. }
  unfold list_by_as. rewrite E. reflexivity.
Qed.
Lemma get_as_large int_of d s asns n : int_of s = Some n -> (2 ^ 31 <= n)%Z -> get_as_command int_of d (s :: asns) = Ok (mkEnded 1 [] []).
Proof.
  intros E B. unfold get_as_command. cbn [handle_get_as]. rewrite E. unfold py_get_as_int. replace (_ || _) with true by lia. reflexivity.
Qed.
