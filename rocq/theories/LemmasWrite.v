(** loc_writer_write: sections, records and signatures. *)
From Coq Require Import NArith ZArith List Bool Arith Lia ZifyBool ZifyNat ZifyN Permutation.
From Verif Require Import Base ModelAddress ModelCountryCode ModelNetwork ModelTree ModelStringPool ModelObjects
  ModelFile ModelWriter SpecNetwork SpecStringPool SpecObjects SpecTree SpecWriter
  LemmasBase LemmasStringPool LemmasSpecNetwork LemmasTree LemmasTreeProps LemmasObjects LemmasFile LemmasWriter.
Import ListNotations.
Open Scope N_scope.
Local Opaque cleanup.

Lemma ok3 {A B C} (a a' : A) (b b' : B) (c c' : C) : Ok (a, b, c) = Ok (a', b', c') -> a = a' /\ b = b' /\ c = c'.
Proof. intros [= -> -> ->]. auto. Qed.

Lemma ok2 {A B} (a a' : A) (b b' : B) : Ok (a, b) = Ok (a', b') -> a = a' /\ b = b'.
Proof. intros [= -> ->]. auto. Qed.

(** ** AS records *)
Definition as_string (a : as_obj) : cstr := match as_name a with Some s => s | None => [] end.
Definition as_rec := (N * N)%type.
Definition enc_as_rec (r : as_rec) : list N := enc_as (fst r) (snd r).
Definition as_recs (l : list as_obj) (offs : list nat) : list as_rec :=
  map (fun '(a, off) => (as_number a, N.of_nat off)) (combine l offs).

Lemma write_ases_add_all l : forall p,
  write_ases p l = do (p, offs) <- add_all p (map as_string l); Ok (p, flat_map enc_as_rec (as_recs l offs)).
Proof.
  induction l as [|a l IH]; intros p; cbn [write_ases map add_all]; [reflexivity|].
  fold (as_string a). destruct (pool_add p (Some (as_string a))) as [[p1 off]| | |]; cbn [bind]; auto.
  rewrite IH. destruct (add_all p1 (map as_string l)) as [[p2 offs]| | |]; cbn [bind]; auto.
Qed.

Lemma write_ases_spec l p ss p' bytes : pool_ok p ss -> Forall as_fine l -> write_ases p l = Ok (p', bytes) ->
  exists tail offs, pool_ok p' (ss ++ tail) /\ length offs = length l /\
    Forall2 (fun a off => located (ss ++ tail) (as_string a) off) l offs /\ bytes = flat_map enc_as_rec (as_recs l offs).
Proof.
  intros P F E. rewrite write_ases_add_all in E.
  destruct (add_all p (map as_string l)) as [[p1 offs]| | |] eqn:Q; try discriminate. cbn [bind] in E. injection E as <- <-.
  destruct (add_all_spec (map as_string l) p ss P) with (p' := p1) (offs := offs) as (tail & P1 & L & _); auto.
  { apply Forall_map. eapply Forall_impl; [|exact F]. intros a [_ A]. unfold as_string. destruct (as_name a); auto. constructor. }
  exists tail, offs. split; auto.
  assert (L2 : Forall2 (fun a off => located (ss ++ tail) (as_string a) off) l offs).
  { clear -L. revert offs L. induction l as [|a l IH]; intros offs L; inversion L; subst; constructor; auto. }
  split; [symmetry; eapply Forall2_len; eauto|]. auto.
Qed.

(** ** Country records *)
Definition country_rec := (cc2 * cc2 * N)%type.
Definition enc_country_rec (r : country_rec) : list N := enc_country (fst (fst r)) (snd (fst r)) (snd r).
Fixpoint blocks (block : cc2) (l : list country) : list cc2 :=
  match l with
  | [] => []
  | c :: l' => let block := if fst (c_continent c) =? 0 then block else c_continent c in block :: blocks block l'
  end.

Lemma write_countries_spec l : forall p ss block p' bytes, pool_ok p ss ->
  Forall (fun c => match c_name c with Name s => is_cstr s | _ => True end) l ->
  write_countries p block l = Ok (p', bytes) ->
  exists tail recs, pool_ok p' (ss ++ tail) /\ bytes = flat_map enc_country_rec recs /\
    map (fun r => fst (fst r)) recs = map c_code l /\ map (fun r => snd (fst r)) recs = blocks block l /\
    Forall2 (fun c r => match c_name c with
                        | NoName => snd r = 0
                        | Name s => exists off, snd r = N.of_nat off /\ located (ss ++ tail) s off
                        | Dangling => False
                        end) l recs.
Proof.
  induction l as [|c l IH]; intros p ss block p' bytes P F E; cbn [write_countries] in E.
  - injection E as <- <-. exists [], []. rewrite app_nil_r. cbn [blocks map flat_map]. auto.
  - inversion F as [|? ? F1 F2]; subst. set (b := if fst (c_continent c) =? 0 then block else c_continent c) in *.
    destruct (match c_name c with NoName => Ok (p, 0%nat) | Name s => pool_add p (Some s) | Dangling => UB end)
      as [[p1 off]| | |] eqn:Q; try discriminate. cbn [bind] in E.
    destruct (write_countries p1 b l) as [[p2 rest]| | |] eqn:W; try discriminate. cbn [bind] in E. injection E as <- <-.
    assert (X : exists tail, pool_ok p1 (ss ++ tail) /\
      match c_name c with NoName => off = 0%nat | Name s => located (ss ++ tail) s off | Dangling => False end).
    { destruct (c_name c) as [|s|]; [|eapply pool_add_inv; eauto|discriminate].
      injection Q as <- <-. exists []. rewrite app_nil_r. auto. }
    destruct X as (tail & P1 & X).
    destruct (IH _ _ _ _ _ P1 F2 W) as (tail2 & recs & P2 & E2 & C & B & L).
    exists (tail ++ tail2), ((c_code c, b, N.of_nat off) :: recs). rewrite app_assoc. split; auto.
    split; [cbn [flat_map]; rewrite E2; reflexivity|]. cbn [map fst snd blocks]. fold b. split; [now rewrite C|]. split; [now rewrite B|].
    constructor; auto. destruct (c_name c) as [|s|]; auto.
    + now subst off.
    + exists off. split; auto. now apply located_app.
Qed.

(** ** Nodes *)
Lemma enc_nodes_length l : length (flat_map enc_node l) = (12 * length l)%nat.
Proof. apply flat_size, enc_node_length. Qed.

Fixpoint net_recs (hole : nat -> N * N * (N * N)) (i : nat) (l : list network) : list (N * N * (N * N) * network) :=
  match l with
  | [] => []
  | n :: l' => (hole i, n) :: net_recs hole (S i) l'
  end.
Definition enc_net_rec (r : N * N * (N * N) * network) : list N := enc_network (fst r) (snd r).
Lemma write_networks_recs hole l : forall i, write_networks hole i l = flat_map enc_net_rec (net_recs hole i l).
Proof. induction l as [|n l IH]; intros i; cbn [write_networks net_recs flat_map]; auto. now rewrite IH. Qed.
Lemma net_recs_nth hole l : forall i k, nth_error (net_recs hole i l) k = option_map (fun n => (hole (i + k)%nat, n)) (nth_error l k).
Proof.
  induction l as [|n l IH]; intros i [|k]; cbn [net_recs nth_error option_map]; auto.
  - now rewrite Nat.add_0_r.
  - rewrite IH. now replace (S i + k)%nat with (i + S k)%nat by lia.
Qed.
Lemma net_recs_length hole l : forall i, length (net_recs hole i l) = length l.
Proof. induction l as [|n l IH]; intros i; cbn [net_recs length]; auto. Qed.

(** ** Alignment *)
Definition padding (out : list N) : list N :=
  repeat 0 (N.to_nat ((PAGE_SIZE - offset out mod PAGE_SIZE) mod PAGE_SIZE)).
Lemma align_padding out : align out = out ++ padding out.
Proof. reflexivity. Qed.

Lemma offset_app a b : offset (a ++ b) = offset a + N.of_nat (length b).
Proof. unfold offset. rewrite app_length. lia. Qed.

Lemma align_mod out : offset (align out) mod PAGE_SIZE = 0.
Proof.
  rewrite align_padding, offset_app. unfold padding. rewrite repeat_length, N2Nat.id. unfold PAGE_SIZE.
  generalize (offset out). intros x. clear. rewrite N.add_mod_idemp_r by lia.
  pose proof (N.div_mod x 4096 ltac:(lia)). pose proof (N.mod_lt x 4096 ltac:(lia)).
  replace (x + (4096 - x mod 4096)) with ((x / 4096 + 1) * 4096) by lia. apply N.mod_mul. lia.
Qed.

Lemma align_bound out : offset out <= offset (align out) < offset out + PAGE_SIZE.
Proof.
  rewrite align_padding, offset_app. unfold padding. rewrite repeat_length, N2Nat.id. unfold PAGE_SIZE.
  match goal with |- context [?a mod 4096] => pose proof (N.mod_lt a 4096 ltac:(lia)) end. lia.
Qed.

(** ** All sections *)
Record sections := mkSections {
  e_ases : list as_rec; e_nodes : list node_rec; e_nets : list (N * N * (N * N) * network);
  e_countries : list country_rec; e_pool : list N
}.
Definition out1 (e : sections) := align [].
Definition out2 (e : sections) := align (out1 e ++ flat_map enc_as_rec (e_ases e)).
Definition out3 (e : sections) := align (out2 e ++ flat_map enc_node (e_nodes e)).
Definition out4 (e : sections) := align (out3 e ++ flat_map enc_net_rec (e_nets e)).
Definition out5 (e : sections) := align (out4 e ++ flat_map enc_country_rec (e_countries e)).
Definition out6 (e : sections) := out5 e ++ e_pool e.
Definition zero_sig : list N := repeat 0 (N.to_nat SIG_MAX).
Definition header_of (e : sections) (now : N) (v d l : nat) : header :=
  mkHeader now (N.of_nat v) (N.of_nat d) (N.of_nat l)
    (offset (out1 e)) (8 * N.of_nat (length (e_ases e)))
    (offset (out3 e)) (12 * N.of_nat (length (e_nets e)))
    (offset (out2 e)) (12 * N.of_nat (length (e_nodes e)))
    (offset (out4 e)) (8 * N.of_nat (length (e_countries e)))
    (offset (out5 e)) (N.of_nat (length (e_pool e)))
    0 0 zero_sig zero_sig (repeat 0 32%nat).

Lemma enc_as_rec_length r : length (enc_as_rec r) = 8%nat.
Proof. apply enc_as_length. Qed.
Lemma enc_net_rec_length r : length (enc_net_rec r) = 12%nat.
Proof. apply enc_network_length. Qed.
Lemma enc_country_rec_length r : length (enc_country_rec r) = 8%nat.
Proof. apply enc_country_length. Qed.

Section Write.
Variable ctz0 : nat.
Variable held : network -> bool.
Variable key1 key2 : option evp.

(** What a call of loc_writer_write did with the writer and the tables. *)
Record did (w : writer) (ss : list cstr) (x : save) (w' : writer) (ss' : list cstr) (e : sections)
    (offs : list nat) (nets : list network) : Prop := mkDid {
  k_as : w_as w' = olist_sort as_cmp (w_as w);
  k_offs : Forall2 (fun a off => located ss' (as_string a) off) (ol_elems (w_as w')) offs;
  k_ases : e_ases e = as_recs (ol_elems (w_as w')) offs;
  k_tree : cleanup ctz0 held (w_tree w) = Ok (w_tree w');
  k_nodes : write_nodes [w_tree w'] 0 0 (all_nodes (w_tree w')) = Ok (e_nodes e, nets);
  k_nets : e_nets e = net_recs (s_hole x) 0 nets;
  k_countries : w_countries w' = w_countries w;
  k_codes : map (fun r => fst (fst r)) (e_countries e) = map c_code (ol_elems (w_countries w));
  k_blocks : map (fun r => snd (fst r)) (e_countries e) = blocks (s_block0 x) (ol_elems (w_countries w));
  k_names : Forall2 (fun c r => match c_name c with
                        | NoName => snd r = 0
                        | Name s => exists off, snd r = N.of_nat off /\ located ss' s off
                        | Dangling => False
                        end) (ol_elems (w_countries w)) (e_countries e);
  k_pool : pool_ok (w_pool w') ss';
  k_data : e_pool e = sp_data (w_pool w');
  k_tail : exists tail, ss' = ss ++ tail
}.

Lemma write_sections_spec w c ss x w' h out : winv w c ss ->
  write_sections ctz0 held (s_hole x) (s_block0 x) w (s_now x) = Ok (w', h, out) ->
  exists ss' e offs nets, did w ss x w' ss' e offs nets /\ winv w' c ss' /\
    w_sig1 w' = w_sig1 w /\ w_sig2 w' = w_sig2 w /\
    h = header_of e (s_now x) (w_vendor w') (w_description w') (w_license w') /\ out = out6 e.
Proof.
  intros I. unfold write_sections.
  set (w1 := with_as w (olist_sort as_cmp (w_as w))).
  assert (I1 : winv w1 c ss).
  { destruct (sort_ok as_cmp as_number (fun _ => True) as_cmp_key (w_as w) (i_as_ok _ _ _ I)) as (S1 & _ & S3).
    destruct I. subst w1. constructor;
    cbn [with_as w_pool w_vendor w_description w_license w_as w_countries w_next w_tree w_sig1 w_sig2]; auto.
    - eapply perm_trans; [apply Permutation_map, S3|auto].
    - eapply Permutation_Forall; [apply Permutation_sym, S3|auto]. }
  change (w_as w1) with (olist_sort as_cmp (w_as w)) at 1.
  change (w_pool w1) with (w_pool w).
  destruct (write_ases (w_pool w) (ol_elems (olist_sort as_cmp (w_as w)))) as [[p1 asb]| | |] eqn:Q1; cbn [bind]; try discriminate.
  destruct (write_ases_spec _ _ _ _ _ (i_pool _ _ _ I1) (i_as_fine _ _ _ I1) Q1) as (tail1 & offs & P1 & Lo & Lf & Eb).
  change (w_tree (with_pool w1 p1)) with (w_tree w).
  destruct (cleanup ctz0 held (w_tree w)) as [t| | |] eqn:Q2; cbn [bind]; try discriminate.
  destruct (write_nodes [t] 0 0 (all_nodes t)) as [[nodes nets]| | |] eqn:Q3; cbn [bind]; try discriminate.
  cbn [w_pool with_tree with_pool with_as w_countries w1].
  destruct (write_countries p1 (s_block0 x) (ol_elems (w_countries w))) as [[p2 cb]| | |] eqn:Q4; cbn [bind]; try discriminate.
  assert (Fc : Forall (fun c => match c_name c with Name s => is_cstr s | _ => True end) (ol_elems (w_countries w))).
  { apply Forall_forall. intros y Hy. destruct (Forall2_in_l _ _ _ _ (i_countries _ _ _ I) Hy) as (z & _ & _ & _ & _ & Z).
    destruct (c_name y); auto. apply Z. }
  destruct (write_countries_spec _ _ _ _ _ _ P1 Fc Q4) as (tail2 & recs & P2 & Ec & C1 & C2 & C3).
  rewrite <- app_assoc in P2, C3. intros E. apply ok3 in E as (<- & <- & <-).
  set (e := mkSections (as_recs (ol_elems (olist_sort as_cmp (w_as w))) offs) nodes (net_recs (s_hole x) 0 nets) recs (sp_data p2)).
  assert (T : tree_ok t) by (apply (cleanup_facts ctz0 held _ _ (i_tree _ _ _ I) Q2)).
  exists (ss ++ tail1 ++ tail2), e, offs, nets. split; [|split; [|split; [|split; [|split]]]].
  - constructor; cbn [with_pool with_tree with_as w_pool w_as w_tree w_countries e_ases e_nodes e_nets e_countries e_pool e]; auto.
    + clear -Lf. induction Lf as [|a o l os H L IH]; constructor; auto. rewrite app_assoc. now apply located_app.
    + eauto.
  - pose proof (winv_more _ _ _ p2 (tail1 ++ tail2) I1 P2) as I2.
    apply with_tree_inv with (t := t) in I2; auto.
  - reflexivity.
  - reflexivity.
  - unfold header_of, out5, out4, out3, out2, out1, e. cbn [e_ases e_nodes e_nets e_countries e_pool].
    cbn [with_pool with_tree with_as w_pool w_vendor w_description w_license w1].
    rewrite Eb, Ec, write_networks_recs. unfold w1. cbn [with_as w_as].
    f_equal.
    + now rewrite (flat_size _ 8 enc_as_rec_length), Nat2N.inj_mul.
    + now rewrite (flat_size _ 12 enc_net_rec_length), Nat2N.inj_mul.
    + now rewrite (flat_size _ 12 enc_node_length), Nat2N.inj_mul.
    + now rewrite (flat_size _ 8 enc_country_rec_length), Nat2N.inj_mul.
  - unfold out6, out5, out4, out3, out2, out1, e. cbn [e_ases e_nodes e_nets e_countries e_pool].
    cbn [with_pool with_tree with_as w_pool w_vendor w_description w_license w1 w_as].
    now rewrite Eb, Ec, write_networks_recs.
Qed.

(** ** Signatures *)
Lemma create_signature_ok k h f s r s' : sig_ok s -> create_signature k h f s = Ok (r, s') -> sig_ok s'.
Proof.
  intros [A B]. unfold create_signature. cbn [fst snd].
  assert (X : sig_ok (fst s, SIG_MAX)) by (split; cbn [fst snd]; auto; lia).
  destruct (negb _); [intros E; apply ok2 in E as [_ <-]; exact X|].
  destruct (_ <? _); [intros E; apply ok2 in E as [_ <-]; exact X|].
  destruct (feed _ _ _) as [[i z]|]; [intros E; apply ok2 in E as [_ <-]; exact X|].
  destruct (ev_final k _) as [z s1]. destruct (negb _); [intros E; apply ok2 in E as [_ <-]; exact X|].
  destruct (N.ltb_spec SIG_MAX (N.of_nat (length s1))); [discriminate|].
  intros E; apply ok2 in E as [_ <-]. split; cbn [fst snd]; [|lia]. rewrite app_length, skipn_length. lia.
Qed.

Lemma key_signature_ok (key : option evp) h f s r s' : sig_ok s ->
  match key with Some k => create_signature k h f s | None => Ok (0%Z, s) end = Ok (r, s') -> sig_ok s'.
Proof.
  intros O. destruct key as [k|]; [now apply create_signature_ok|]. intros E. apply ok2 in E as [_ <-]. exact O.
Qed.

Lemma with_sigs_inv w c ss s1 s2 : winv w c ss -> sig_ok s1 -> sig_ok s2 -> winv (with_sigs w s1 s2) c ss.
Proof. intros [] A B. constructor; cbn [with_sigs w_pool w_vendor w_description w_license w_as w_countries w_next w_tree w_sig1 w_sig2]; auto. Qed.

Lemma with_sigs_did w ss x w' ss' e offs nets s1 s2 : did w ss x w' ss' e offs nets -> did w ss x (with_sigs w' s1 s2) ss' e offs nets.
Proof. intros []. constructor; cbn [with_sigs w_pool w_as w_tree w_countries]; auto. Qed.

Definition magic : list N := MAGIC ++ [VERSION_1].
Definition file_header (e : sections) (now : N) (w' : writer) : header :=
  sign_header (header_of e now (w_vendor w') (w_description w') (w_license w')) (w_sig1 w') (w_sig2 w').

Lemma write_spec w c ss x r w' f : winv w c ss -> write_to ctz0 held key1 key2 w x = Ok (r, w', f) ->
  ((s_version x =? 0) || (s_version x =? VERSION_1) = false /\ r = (-1)%Z /\ w' = w /\ f = s_old x) \/
  ((s_version x =? 0) || (s_version x =? VERSION_1) = true /\
   exists ss' e offs nets, did w ss x w' ss' e offs nets /\ winv w' c ss' /\
     (r = 0%Z -> f = overwrite (magic ++ enc_header (file_header e (s_now x) w') ++ out6 e) (s_old x))).
Proof.
  intros I. unfold write_to, writer_write. destruct ((s_version x =? 0) || _) eqn:V; cbn [negb].
  2:{ intros E. apply ok3 in E as (<- & <- & <-). left. auto. }
  destruct (write_sections _ _ _ _ w (s_now x)) as [[[w1 h] out]| | |] eqn:Q; cbn [bind]; try discriminate.
  destruct (write_sections_spec w c ss x w1 h out I Q) as (ss' & e & offs & nets & D & I1 & S1 & S2 & -> & ->).
  match goal with |- context [overwrite (_ ++ ?g ++ out6 e) (s_old x)] => set (gap := g) end.
  match goal with |- context [create_signature _ ?h ?f _] => set (hd := h); set (f1 := f) end.
  destruct (match key1 with Some k => create_signature k hd f1 (w_sig1 w1) | None => Ok (0%Z, w_sig1 w1) end)
    as [[r1 s1]| | |] eqn:K1; cbn [bind]; try discriminate.
  apply key_signature_ok in K1; [|apply I1].
  intros E. right. split; auto. exists ss', e, offs, nets. revert E.
  destruct (negb (r1 =? 0)%Z) eqn:R1.
  { intros E. apply ok3 in E as (<- & <- & <-). split; [now apply with_sigs_did|].
    split; [apply with_sigs_inv; auto; apply I1|]. intros ->. discriminate. }
  change (w_sig2 (with_sigs w1 s1 (w_sig2 w1))) with (w_sig2 w1).
  destruct (match key2 with Some k => create_signature k hd f1 (w_sig2 w1) | None => Ok (0%Z, w_sig2 w1) end)
    as [[r2 s2]| | |] eqn:K2; cbn [bind]; try discriminate.
  apply key_signature_ok in K2; [|apply I1].
  destruct (negb (r2 =? 0)%Z) eqn:R2.
  { intros E. apply ok3 in E as (<- & <- & <-). split; [now apply with_sigs_did, with_sigs_did|].
    split; [apply with_sigs_inv; auto; apply with_sigs_inv; auto; apply I1|]. intros ->. discriminate. }
  intros E. apply ok3 in E as (<- & <- & <-). split; [now apply with_sigs_did, with_sigs_did|].
  split; [apply with_sigs_inv; auto; apply with_sigs_inv; auto; apply I1|]. reflexivity.
Qed.

(** ** Histories *)
Lemma step_inv w c ss o w' : winv w c ss -> call_ok o -> step ctz0 held key1 key2 w o = Ok w' ->
  exists ss', winv w' (means c o) ss'.
Proof.
  intros I O E. destruct o as [s|s|s|n|id s|code|id s|id s|n|n a|x]; cbn [step call_ok] in *.
  - destruct s as [s|]; cbn [set_vendor] in E; [|injection E as <-; eauto].
    unfold set_vendor in E. destruct (pool_add_not_err _ _ s (i_pool _ _ _ I) O) as [U|(p & off & U)]; rewrite U in E; [discriminate|].
    injection E as <-. destruct (set_strings_inv w c ss s p off _ _ I O U ltac:(left; split; reflexivity)) as [ss' X]. eauto.
  - destruct s as [s|]; [|injection E as <-; eauto].
    unfold set_description in E. destruct (pool_add_not_err _ _ s (i_pool _ _ _ I) O) as [U|(p & off & U)]; rewrite U in E; [discriminate|].
    injection E as <-. destruct (set_strings_inv w c ss s p off _ _ I O U ltac:(right; left; split; reflexivity)) as [ss' X]. eauto.
  - destruct s as [s|]; [|injection E as <-; eauto].
    unfold set_license in E. destruct (pool_add_not_err _ _ s (i_pool _ _ _ I) O) as [U|(p & off & U)]; rewrite U in E; [discriminate|].
    injection E as <-. destruct (set_strings_inv w c ss s p off _ _ I O U ltac:(right; right; split; reflexivity)) as [ss' X]. eauto.
  - destruct (add_as_inv w c ss n I O) as (w1 & Q & I1). rewrite Q in E. injection E as <-. eauto.
  - injection E as <-. exists ss. now apply name_as_inv.
  - pose proof (add_country_inv w c ss code I) as A. cbn [means] in *. destruct (country_code code) as [s|].
    + destruct A as (w1 & Q & I1). rewrite Q in E. injection E as <-. eauto.
    + rewrite A in E. injection E as <-. eauto.
  - pose proof (name_country_inv w c ss id s I O) as A. destruct (name_country w id s) as [w1| | |]; try discriminate; [|easy].
    injection E as <-. eauto.
  - pose proof (continent_inv w c ss id s I O) as A. destruct (continent_country w id s) as [w1| | |]; try discriminate.
    + injection E as <-. eauto.
    + injection E as <-. rewrite A. eauto.
  - injection E as <-. exists ss. apply with_tree_inv; auto. apply add_net_ok; auto. apply I.
  - injection E as <-. exists ss. apply with_tree_inv; auto. apply change_spec; [apply I|apply O].
  - destruct (write_to ctz0 held key1 key2 w x) as [[[r w1] f]| | |] eqn:Q; try discriminate. injection E as <-.
    destruct (write_spec w c ss x r w1 f I Q) as [(_ & _ & -> & _)|(_ & ss' & e & offs & nets & _ & I1 & _)]; eauto.
Qed.

Lemma run_inv os : forall w c ss w', winv w c ss -> Forall call_ok os -> run ctz0 held key1 key2 w os = Ok w' ->
  exists ss', winv w' (fold_left means os c) ss'.
Proof.
  induction os as [|o os IH]; intros w c ss w' I O E; cbn [run fold_left] in *.
  - injection E as <-. eauto.
  - inversion O; subst. destruct (step ctz0 held key1 key2 w o) as [w1| | |] eqn:Q; try discriminate. cbn [bind] in E.
    destruct (step_inv w c ss o w1 I ltac:(auto) Q) as [ss1 I1]. eauto.
Qed.

Lemma program_inv os w : Forall call_ok os -> program ctz0 held key1 key2 os = Ok w -> exists ss, winv w (meaning os) ss.
Proof.
  intros O E. unfold program in E. destruct writer_new_inv as (w0 & E0 & I & _). rewrite E0 in E. cbn [bind] in E.
  now apply (run_inv os w0 nothing [[]]).
Qed.

(** The networks: what the calls do to the tree is what SpecTree describes. *)
Lemma step_tree w c ss o w' : winv w c ss -> call_ok o -> step ctz0 held key1 key2 w o = Ok w' ->
  exists rs, wrun ctz0 held (w_tree w) (network_ops o) = Ok (w_tree w', rs).
Proof.
  intros I O E.
  destruct o as [s|s|s|n|id s|code|id s|id s|n|n a|x]; cbn [step call_ok network_ops wrun] in *.
  - exists []. unfold set_vendor in E. destruct (pool_add _ _) as [[p off]| | |]; try discriminate; injection E as <-; reflexivity.
  - exists []. unfold set_description in E. destruct (pool_add _ _) as [[p off]| | |]; try discriminate; injection E as <-; reflexivity.
  - exists []. unfold set_license in E. destruct (pool_add _ _) as [[p off]| | |]; try discriminate; injection E as <-; reflexivity.
  - exists []. unfold writer_add_as in E. destruct (olist_append _ _ _); try discriminate; injection E as <-; reflexivity.
  - exists []. injection E as <-. reflexivity.
  - exists []. unfold writer_add_country in E. destruct (country_new _ _); cbn [bind] in E; try discriminate.
    + destruct (olist_append _ _ _); try discriminate; injection E as <-; reflexivity.
    + injection E as <-; reflexivity.
  - exists []. unfold name_country in E. destruct (change_country _ _ _); try discriminate; injection E as <-; reflexivity.
  - exists []. unfold continent_country in E. destruct (change_country _ _ _); try discriminate; injection E as <-; reflexivity.
  - injection E as <-. cbn [wstep bind]. destruct (tree_add (w_tree w) n) as [t r]. cbn [bind with_tree w_tree fst]. eauto.
  - injection E as <-. cbn [wstep bind with_tree w_tree]. eauto.
  - destruct (write_to ctz0 held key1 key2 w x) as [[[r w1] f]| | |] eqn:Q; try discriminate. injection E as <-.
    destruct (write_spec w c ss x r w1 f I Q) as [(V & _ & -> & _)|(V & ss' & e & offs & nets & D & _ & _)]; rewrite V.
    + exists []. reflexivity.
    + cbn [wrun wstep]. rewrite (k_tree _ _ _ _ _ _ _ _ D). cbn [bind]. eauto.
Qed.

Lemma wrun_app t a b t1 r1 t2 r2 : wrun ctz0 held t a = Ok (t1, r1) -> wrun ctz0 held t1 b = Ok (t2, r2) ->
  wrun ctz0 held t (a ++ b) = Ok (t2, r1 ++ r2).
Proof.
  revert t r1. induction a as [|o a IH]; intros t r1 E1 E2; cbn [wrun app] in *.
  - injection E1 as <- <-. exact E2.
  - destruct (wstep ctz0 held t o) as [[t' r]| | |]; try discriminate. cbn [bind] in *.
    destruct (wrun ctz0 held t' a) as [[t'' rs]| | |] eqn:Q; try discriminate. cbn [bind] in E1. injection E1 as <- <-.
    rewrite (IH _ _ Q E2). reflexivity.
Qed.

Lemma run_tree os : forall w c ss w', winv w c ss -> Forall call_ok os -> run ctz0 held key1 key2 w os = Ok w' ->
  exists rs, wrun ctz0 held (w_tree w) (flat_map network_ops os) = Ok (w_tree w', rs).
Proof.
  induction os as [|o os IH]; intros w c ss w' I O E; cbn [run flat_map] in *.
  - injection E as <-. exists []. reflexivity.
  - inversion O; subst. destruct (step ctz0 held key1 key2 w o) as [w1| | |] eqn:Q; try discriminate. cbn [bind] in E.
    destruct (step_inv w c ss o w1 I ltac:(auto) Q) as [ss1 I1].
    destruct (step_tree w c ss o w1 I ltac:(auto) Q) as [r1 T1].
    destruct (IH w1 _ ss1 w' I1 ltac:(auto) E) as [r2 T2]. exists (r1 ++ r2). eapply wrun_app; eauto.
Qed.

Lemma program_tree os w : Forall call_ok os -> program ctz0 held key1 key2 os = Ok w ->
  exists rs, wrun ctz0 held tree_new (flat_map network_ops os) = Ok (w_tree w, rs).
Proof.
  intros O E. unfold program in E. destruct writer_new_inv as (w0 & E0 & I & T). rewrite E0 in E. cbn [bind] in E.
  rewrite <- T. now apply (run_tree os w0 nothing [[]]).
Qed.

Lemma network_ops_ok os : Forall call_ok os -> Forall wop_ok (flat_map network_ops os).
Proof.
  induction 1 as [|o os H F IH]; cbn [flat_map]; [constructor|]. apply Forall_app. split; auto.
  destruct o; cbn [network_ops call_ok] in *; try (constructor; fail); try (constructor; [exact H|constructor]).
  destruct (_ || _); repeat constructor.
Qed.
End Write.
