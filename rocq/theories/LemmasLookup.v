(** loc_database_lookup on the records of a tree *)
From Coq Require Import NArith ZArith List Bool Arith Lia ZifyBool ZifyNat ZifyN.
From Verif Require Import Base LemmasBase ModelAddress LemmasAddress ModelCountryCode ModelNetwork LemmasNetwork ModelNetworkList
  ModelTree LemmasPath LemmasTree LemmasMergeTree LemmasTreeProps LemmasSpecNetwork ModelStringPool ModelObjects ModelFile ModelWriter ModelDatabase SpecNetwork SpecTree SpecWriter LemmasNodes.
Import ListNotations.
Open Scope N_scope.

(** The network of the last node that exists on the way along [bits]. *)
Fixpoint last_at (t : tree) (bits : list bool) {struct bits} : option network :=
  match t with
  | Nil => None
  | Node _ n z o =>
      match bits with
      | [] => n
      | b :: bits' => match (if b then o else z) with Nil => n | c => last_at c bits' end
      end
  end.

Lemma skipn_nth {A} (l : list A) i d : (i < length l)%nat -> skipn i l = nth i l d :: skipn (S i) l.
Proof. revert i. induction l as [|x l IH]; intros [|i] H; cbn [length] in *; try lia; auto. cbn [skipn nth]. rewrite IH by lia. reflexivity. Qed.

Lemma pre_snoc_nth q l d : pre q l -> (length q < length l)%nat -> pre (q ++ [nth (length q) l d]) l.
Proof.
  intros [r ->] L. rewrite app_length in L. destruct r as [|x r]; [cbn [length] in L; lia|].
  rewrite app_nth2, Nat.sub_diag by lia. cbn [nth]. exists r. now rewrite <- app_assoc.
Qed.

Lemma get_bit_msb a i : wf a -> (i < 128)%nat -> addr_get_bit a i = N.b2n (nth i (msb 128 (val a)) false).
Proof. intros W H. rewrite msb_nth by auto. now rewrite addr_get_bit_spec. Qed.

Lemma first_of_set a na L : wf a -> wf na -> (L < 128)%nat -> val na = first_of (val a) L ->
  wf (addr_set_bit na L (addr_get_bit a L)) /\ val (addr_set_bit na L (addr_get_bit a L)) = first_of (val a) (S L).
Proof.
  intros Wa Wn HL E. split; [now apply addr_set_bit_wf|].
  pose proof (addr_set_bit_wf na L (addr_get_bit a L) Wn) as W.
  apply N.bits_inj. intro k. destruct (N.lt_ge_cases k 128) as [K|K].
  - assert (G : (127 - N.to_nat k < 128)%nat) by lia.
    pose proof (addr_get_bit_spec _ _ W G) as B1.
    assert (Bd : addr_get_bit a L < 2) by (rewrite get_bit_msb by auto; destruct (nth _ _ _); cbn; lia).
    rewrite addr_set_bit_get in B1 by auto.
    replace (N.of_nat (127 - (127 - N.to_nat k))) with k in B1 by lia.
    rewrite first_of_testbit.
    destruct (Nat.eqb_spec (127 - N.to_nat k) L) as [Q|Q].
    + pose proof (addr_get_bit_spec a L Wa HL) as G2. replace (N.of_nat (127 - L)) with k in G2 by lia.
      replace (N.of_nat (128 - S L) <=? k) with true by lia. rewrite andb_true_r.
      apply N.b2n_inj. rewrite <- B1. exact G2.
    + rewrite (addr_get_bit_spec na) in B1 by auto. replace (N.of_nat (127 - (127 - N.to_nat k))) with k in B1 by lia.
      rewrite E, first_of_testbit in B1. replace (N.of_nat (128 - S L) <=? k) with (N.of_nat (128 - L) <=? k).
      2:{ destruct (N.leb_spec (N.of_nat (128 - L)) k), (N.leb_spec (N.of_nat (128 - S L)) k); auto; lia. }
      symmetry. now apply N.b2n_inj.
  - assert (Z : forall m, m < 2 ^ 128 -> N.testbit m k = false).
    { intros m Hm. destruct (N.eq_dec m 0) as [->|]; [apply N.bits_0|]. apply N.bits_above_log2.
      apply N.log2_lt_pow2; [lia|]. apply N.lt_le_trans with (1 := Hm). apply N.pow_le_mono_r; lia. }
    rewrite Z by now apply val_bound. rewrite first_of_testbit, Z by now apply val_bound. reflexivity.
Qed.

Lemma first_first v p q : (p <= q)%nat -> (q <= 128)%nat -> first_of (first_of v q) p = first_of v p.
Proof.
  intros H1 H2. apply N.bits_inj. intro k. rewrite !first_of_testbit.
  destruct (N.leb_spec (N.of_nat (128 - p)) k), (N.leb_spec (N.of_nat (128 - q)) k); rewrite ?andb_true_r, ?andb_false_r; auto; lia.
Qed.

Definition zero_net (v : N) (x : network) : bool := mappedb v && (n_prefix x =? 95)%nat.

(** the record of [x] *)
Definition rec_of (x : network) (r : list N) : Prop :=
  nth 0 r 0 = fst (n_cc x) /\ nth 1 r 0 = snd (n_cc x) /\ field r 4 4 = n_asn x /\ field r 8 2 = n_flags x mod 2 ^ 16.

Lemma from_database_spec v x r na : net_wf x -> rec_of x r -> inb x v -> v < 2 ^ 128 -> wf na ->
  val na = first_of v (Nat.min 128 (S (n_prefix x))) ->
  network_from_database na (N.of_nat (n_prefix x)) r = if zero_net v x then (None, 1%Z) else (Some (as_read x), 0%Z).
Proof.
  intros W (R1 & R2 & R3 & R4) I V Wn E. unfold network_from_database. rewrite v4mapped_val by auto.
  pose proof (w_prefix x W) as P. apply inb_iff in I; auto.
  assert (Lx : lo x = first_of v (n_prefix x)) by (unfold first_of; rewrite I; now rewrite <- lo_div).
  assert (M : mappedb (val na) = ((95 <=? n_prefix x)%nat && mappedb v)).
  { rewrite E. destruct (Nat.leb_spec 95 (n_prefix x)).
    - rewrite mapped_first by lia. reflexivity.
    - rewrite mapped_first_short by lia. reflexivity. }
  set (prefix := if mappedb (val na) then _ else _).
  pose proof (network_new_spec na prefix Wn) as NN.
  destruct (zero_net v x) eqn:Z; unfold zero_net in Z.
  - apply andb_true_iff in Z as [Z1 Z2]. apply Nat.eqb_eq in Z2.
    rewrite Z1, Z2 in M. cbn in M. unfold prefix in NN. rewrite M, Z2 in NN. unfold low_bits in NN. rewrite M in NN.
    change (((N.of_nat 95 + (2 ^ 32 - 96)) mod 2 ^ 32) <=? 32) with false in NN. cbn iota in NN.
    unfold prefix. rewrite M, Z2. rewrite NN. reflexivity.
  - assert (Pr : prefix <= low_bits (val na) /\ raw_prefix (val na) prefix = n_prefix x).
    { unfold raw_prefix, low_bits, prefix. rewrite M. destruct (mappedb v) eqn:Mv.
      - destruct (Nat.leb_spec 95 (n_prefix x)); cbn [andb].
        + assert (n_prefix x <> 95)%nat by (intros Q; rewrite Q in Z; discriminate).
          replace (N.of_nat (n_prefix x) + (2 ^ 32 - 96)) with (N.of_nat (n_prefix x - 96) + 1 * 2 ^ 32) by lia.
          rewrite N.mod_add, N.mod_small by lia. lia.
        + lia.
      - rewrite andb_false_r. lia. }
    destruct Pr as [Pr1 Pr2]. replace (prefix <=? low_bits (val na)) with true in NN by lia.
    destruct NN as (n & -> & Wn' & N1 & N2 & N3 & N4 & N5 & N6). rewrite Pr2 in N1, N2.
    rewrite E in N1. rewrite first_first in N1 by lia.
    destruct (net_eq n x Wn' W ltac:(congruence) N2) as (E1 & E2 & E3).
    assert (C : set_country_code n (Some (cc_str (nth 0 r 0, nth 1 r 0))) =
                Ok (with_cc n (if fst (n_cc x) =? 0 then (0, 0) else n_cc x))).
    { rewrite R1, R2. pose proof (w_cc x W) as Cx. destruct (n_cc x) as [c1 c2]. cbn [fst snd] in *. unfold cc_str.
      destruct (N.eqb_spec c1 0) as [->|Nz]; cbn [set_country_code].
      - now rewrite N4.
      - destruct Cx as [[Cx _]|Cx]; [cbn in Cx; lia|]. cbn [fst snd] in Cx. pose proof (cc_valid_nz _ _ Cx).
        replace (c2 =? 0) with false by lia. cbn [set_country_code]. rewrite Cx. reflexivity. }
    rewrite C. cbn iota. f_equal. f_equal. destruct n as [nf n1 n2 np nc na' nfl]. cbn in *. subst.
    unfold as_read. unfold set_flag, set_asn, with_flags, with_asn, with_cc. cbn [n_family n_first n_last n_prefix n_cc n_asn n_flags].
    rewrite R3, R4, N.lor_0_l. reflexivity.
Qed.

Lemma as_read_member x v : member (as_read x) v <-> member x v.
Proof. reflexivity. Qed.

Definition found (v : N) (n : option network) : option network :=
  match n with Some x => if zero_net v x then None else Some (as_read x) | None => None end.

Section Rep.
Variable d : db.
Variable nodes : list node_rec.
Variable nets : list network.
Hypothesis Hnode : forall i r, nth_error nodes i = Some r -> fetch_node d (N.of_nat i) = Ok (Some r).
Hypothesis Hcount : snd (d_tree d) = N.of_nat (length nodes).
Hypothesis Hnet : forall k n, nth_error nets k = Some n -> N.of_nat k <> NO_NETWORK /\
  exists r, rec_of n r /\ forall na lv, fetch_network d na lv (N.of_nat k) = Ok (network_from_database na lv r).
Variable a : addr.
Hypothesis Ha : wf a.

Let bits := msb 128 (val a).

Lemma bits_length : length bits = 128%nat.
Proof. apply msb_length. Qed.

Lemma leaf_spec x na k L : net_wf x -> pre (path x) bits -> nth_error nets k = Some x -> wf na ->
  val na = first_of (val a) (Nat.min 128 (S L)) -> L = n_prefix x ->
  handle_leaf d a na (N.of_nat L) (0, 0, N.of_nat k) =
    Ok (found (val a) (Some x), if zero_net (val a) x then 1%Z else 0%Z).
Proof.
  intros W P E Wn Vn ->. destruct (Hnet k x E) as (_ & r & R & F). unfold handle_leaf. cbn [snd]. rewrite F. cbn [bind].
  apply inb_path in P; auto; [|now apply val_bound].
  rewrite (from_database_spec (val a)) with (x := x) by (auto; now apply val_bound). cbn [found].
  destruct (zero_net (val a) x); cbn [Z.eqb negb]; auto.
  replace (network_matches_address (as_read x) a) with true; auto. symmetry.
  change (network_matches_address (as_read x) a) with (network_matches_address x a). now apply matches_iff.
Qed.

Lemma sub_past t b p q : wf_at q t -> (length q + S (length p) > 128)%nat -> sub t (b :: p) = Nil.
Proof.
  intros W L. destruct (sub t (b :: p)) eqn:E; auto. exfalso.
  pose proof (wf_len q t (b :: p) W ltac:(now rewrite E)) as X. rewrite app_length in X. cbn [length] in X. lia.
Qed.

Lemma child_at t p q c : wf_at q t -> length q = 128%nat -> t = Node false p Nil c \/ True ->
  match t with Nil => True | Node _ _ z o => z = Nil /\ o = Nil end.
Proof.
  intros W L _. destruct t as [|dl n z o]; auto.
  pose proof (sub_past (Node dl n z o) false [] q W ltac:(cbn; lia)) as Z.
  pose proof (sub_past (Node dl n z o) true [] q W ltac:(cbn; lia)) as O. cbn [sub] in *. auto.
Qed.

Lemma lookup_rep beyond fuel : forall t q i na, rep nodes nets t i -> wf_at q t -> pre q bits ->
  wf na -> val na = first_of (val a) (length q) -> (129 <= fuel + length q)%nat ->
  (beyond 128%nat = None -> sub t (skipn (length q) bits) = Nil) ->
  exists na', lookup_loop beyond d a na (N.of_nat i) (length q) fuel =
    Ok (found (val a) (last_at t (skipn (length q) bits)), na', 0%Z).
Proof.
  pose proof bits_length as BL.
  induction fuel as [|fuel IH]; intros t q i na R W P Wn Vn Hf Hb.
  - exfalso. apply pre_length in P. lia.
  - pose proof (pre_length _ _ P) as Lq. rewrite BL in Lq.
    destruct t as [|dl n z o]; [destruct R|]. destruct R as (iz & io & x & E & Rz & Ro & Rx).
    cbn [lookup_loop]. rewrite (Hnode i _ E). cbn [bind fst snd].
    (* the bit and the address *)
    assert (BS : exists bit na1, get_bit beyond a (length q) = Ok bit /\ set_bit beyond na (length q) bit = Ok na1 /\ wf na1 /\
      val na1 = first_of (val a) (Nat.min 128 (S (length q))) /\
      ((length q < 128)%nat -> bit = N.b2n (nth (length q) bits false))).
    { unfold get_bit, set_bit. destruct (Nat.ltb_spec (length q) 128) as [L|L].
      - exists (addr_get_bit a (length q)), (addr_set_bit na (length q) (addr_get_bit a (length q))).
        destruct (first_of_set a na (length q) Ha Wn L Vn) as [F1 F2].
        split; auto. split; auto. split; auto. split; [rewrite F2; f_equal; lia|]. intros _. now apply get_bit_msb.
      - assert (length q = 128)%nat as L8 by lia. rewrite L8 in *.
        destruct (beyond 128%nat) as [b|].
        + exists b, na. split; auto. split; auto. split; auto. split; [rewrite Vn; f_equal|lia].
        + specialize (Hb eq_refl). rewrite skipn_all2 in Hb by lia. discriminate. }
    destruct BS as (bit & na1 & -> & Es & W1 & V1 & Bit). cbn [bind]. rewrite Es. cbn [bind].
    set (idx := if bit =? 0 then iz else io).
    (* the network here *)
    assert (LF : (if is_leaf (iz, io, x) then
        do (n0, r) <- handle_leaf d a na1 (N.of_nat (length q)) (iz, io, x);
        (if (r <? 0)%Z then Ok (n0, na1, r) else Ok (n0, na1, 0%Z))
      else Ok (None, na1, 0%Z)) = Ok (found (val a) n, na1, 0%Z)).
    { unfold is_leaf. cbn [snd]. destruct n as [y|].
      - destruct Rx as (k & -> & Ek). destruct (Hnet k y Ek) as (Nk & _).
        replace (N.of_nat k =? NO_NETWORK) with false by lia. cbn [negb].
        destruct W as (_ & _ & W3 & _). destruct (W3 y eq_refl) as [Wy Py].
        change (handle_leaf d a na1 (N.of_nat (length q)) (iz, io, N.of_nat k)) with
          (handle_leaf d a na1 (N.of_nat (length q)) (0, 0, N.of_nat k)).
        rewrite (leaf_spec y na1 k (length q)); auto; [|now rewrite Py|now rewrite <- path_length, Py].
        cbn [bind]. destruct (zero_net (val a) y); reflexivity.
      - rewrite Rx. reflexivity. }
    destruct (Nat.eq_dec (length q) 128) as [L8|L8].
    + (* the bottom *)
      destruct (child_at _ None q Nil W L8 (or_intror I)) as [Zz Zo]. rewrite Zz in Rz. rewrite Zo in Ro.
      assert (idx = 0) as -> by (unfold idx; rewrite Rz, Ro; now destruct (bit =? 0)). cbn [N.ltb N.compare].
      exists na1. rewrite skipn_all2 by lia. cbn [last_at]. exact LF.
    + assert (L : (length q < 128)%nat) by lia. specialize (Bit L).
      rewrite (skipn_nth bits (length q) false) by lia. set (b := nth (length q) bits false) in *. cbn [last_at].
      set (c := if b then o else z).
      assert (Ic : match c with Nil => idx = 0 | _ => 0 < idx /\ rep nodes nets c (N.to_nat idx) end).
      { unfold idx, c. rewrite Bit. destruct b; cbn [N.b2n N.eqb]; [destruct o|destruct z]; auto. }
      destruct c as [|dc nc zc oc] eqn:Ec.
      * rewrite Ic. cbn [N.ltb N.compare]. exists na1. exact LF.
      * rewrite <- Ec in *. destruct Ic as [Ip Ir]. replace (0 <? idx) with true by lia.
        assert (Iv : (N.to_nat idx < length nodes)%nat).
        { rewrite Ec in Ir. destruct Ir as (? & ? & ? & Er & _). apply nth_error_Some. congruence. }
        rewrite Hcount. replace (N.of_nat (length nodes) <=? idx) with false by lia.
        assert (Wc : wf_at (q ++ [b]) c) by (unfold c; destruct b; apply W).
        assert (Lq1 : length (q ++ [b]) = S (length q)) by (rewrite app_length; cbn [length]; lia).
        destruct (IH c (q ++ [b]) (N.to_nat idx) na1) as (na2 & E2).
        -- rewrite Ec. rewrite Ec in Ir. exact Ir.
        -- exact Wc.
        -- apply pre_snoc_nth; auto.
        -- exact W1.
        -- rewrite Lq1, V1. f_equal. lia.
        -- lia.
        -- rewrite Lq1. intros B. specialize (Hb B). rewrite (skipn_nth bits (length q) false) in Hb by lia.
           cbn [sub] in Hb. exact Hb.
        -- rewrite Lq1, N2Nat.id in E2. rewrite E2. cbn [bind Z.eqb]. exists na2. rewrite Ec. reflexivity.
Qed.

(** A node for all 128 bits: the function looks at bit 128. *)
Lemma lookup_bottom beyond fuel : forall t q i na, rep nodes nets t i -> wf_at q t -> pre q bits ->
  (129 <= fuel + length q)%nat -> beyond 128%nat = None -> sub t (skipn (length q) bits) <> Nil ->
  lookup_loop beyond d a na (N.of_nat i) (length q) fuel = UB.
Proof.
  pose proof bits_length as BL.
  induction fuel as [|fuel IH]; intros t q i na R W P Hf Hb Hs.
  - exfalso. apply pre_length in P. lia.
  - pose proof (pre_length _ _ P) as Lq. rewrite BL in Lq.
    destruct t as [|dl n z o]; [destruct R|]. destruct R as (iz & io & x & E & Rz & Ro & Rx).
    cbn [lookup_loop]. rewrite (Hnode i _ E). cbn [bind fst snd].
    unfold get_bit, set_bit. destruct (Nat.ltb_spec (length q) 128) as [L|L].
    + cbn [bind]. rewrite get_bit_msb by auto. fold bits.
      rewrite (skipn_nth bits (length q) false) in Hs by lia. set (b := nth (length q) bits false) in *.
      cbn [sub] in Hs. set (c := if b then o else z) in *.
      set (idx := if N.b2n b =? 0 then iz else io).
      assert (Ic : match c with Nil => idx = 0 | _ => 0 < idx /\ rep nodes nets c (N.to_nat idx) end).
      { unfold idx, c. destruct b; cbn [N.b2n N.eqb]; [destruct o|destruct z]; auto. }
      destruct c as [|dc nc zc oc] eqn:Ec; [now rewrite sub_nil in Hs|].
      rewrite <- Ec in *. destruct Ic as [Ip Ir]. replace (0 <? idx) with true by lia.
      assert (Iv : (N.to_nat idx < length nodes)%nat).
      { rewrite Ec in Ir. destruct Ir as (? & ? & ? & Er & _). apply nth_error_Some. congruence. }
      rewrite Hcount. replace (N.of_nat (length nodes) <=? idx) with false by lia.
      assert (Wc : wf_at (q ++ [b]) c) by (unfold c; destruct b; apply W).
      assert (Lq1 : length (q ++ [b]) = S (length q)) by (rewrite app_length; cbn [length]; lia).
      assert (U : forall na1, lookup_loop beyond d a na1 idx (S (length q)) fuel = UB).
      { intros na1. rewrite <- Lq1, <- (N2Nat.id idx). apply (IH c); auto; [|lia|now rewrite Lq1].
        apply pre_snoc_nth; auto. }
      rewrite U. reflexivity.
    + assert (length q = 128)%nat as L8 by lia. rewrite L8, Hb. reflexivity.
Qed.
End Rep.

(** ** The last node in terms of the stored networks *)
Lemma last_at_iff bits : forall t x, last_at t bits = Some x <->
  exists r, pre r bits /\ nt t r = Some x /\ ((length r < length bits)%nat -> sub t (firstn (S (length r)) bits) = Nil).
Proof.
  induction bits as [|b bits IH]; intros t x.
  - destruct t as [|d n z o]; cbn [last_at].
    + split; [discriminate|]. intros (r & _ & E & _). unfold nt in E. now rewrite sub_nil in E.
    + split.
      * intros ->. exists []. split; [apply pre_refl|]. split; [reflexivity|]. cbn [length]. lia.
      * intros (r & [r' P] & E & _). destruct r; [exact E|discriminate].
  - destruct t as [|d n z o]; cbn [last_at].
    { split; [discriminate|]. intros (r & _ & E & _). unfold nt in E. now rewrite sub_nil in E. }
    destruct (if b then o else z) as [|dc nc zc oc] eqn:C.
    + split.
      * intros ->. exists []. split; [now exists (b :: bits)|]. split; [reflexivity|]. intros _. cbn [length firstn sub].
        now rewrite C.
      * intros (r & P & E & _). apply pre_cons_inv in P as [->|(r' & -> & _)]; [exact E|].
        unfold nt in E. cbn [sub] in E. rewrite C, sub_nil in E. discriminate.
    + rewrite <- C. rewrite IH. split.
      * intros (r & P & E & U). exists (b :: r). split; [destruct P as [p ->]; now exists p|].
        split; [exact E|]. cbn [length]. intros L. specialize (U ltac:(lia)). cbn [firstn sub] in *. exact U.
      * intros (r & P & E & U). apply pre_cons_inv in P as [->|(r' & -> & P)].
        -- exfalso. cbn [length firstn sub] in U. specialize (U ltac:(lia)). congruence.
        -- exists r'. split; auto. split; [exact E|]. intros L. cbn [length] in U. specialize (U ltac:(lia)). exact U.
Qed.

Lemma tidy_some t : tidy t -> t <> Nil -> exists r y, nt t r = Some y.
Proof.
  induction t as [|d n z IHz o IHo]; [congruence|]. intros (_ & N & Tz & To) _.
  destruct n as [y|]; [now exists [], y|]. destruct (N eq_refl) as [H|H].
  - destruct (IHz Tz H) as (r & y & E). now exists (false :: r), y.
  - destruct (IHo To H) as (r & y & E). now exists (true :: r), y.
Qed.
Lemma tidy_sub p : forall t, tidy t -> tidy (sub t p).
Proof.
  induction p as [|b p IH]; intros t T; cbn [sub]; auto. destruct t as [|d n z o]; [exact I|].
  apply IH. destruct T as (_ & _ & Tz & To). now destruct b.
Qed.
Lemma clean_some t b p : clean t -> sub t (b :: p) <> Nil -> exists r y, nt t ((b :: p) ++ r) = Some y.
Proof.
  intros C H. destruct t as [|d n z o]; [destruct C|]. destruct C as (_ & Tz & To). cbn [sub] in H.
  assert (T : tidy (sub (if b then o else z) p)) by (apply tidy_sub; now destruct b).
  destruct (tidy_some _ T H) as (r & y & E). exists r, y. unfold nt in *. cbn [app sub]. now rewrite sub_app.
Qed.

Lemma agree_path y v p : net_wf y -> v < 2 ^ 128 -> (p <= n_prefix y)%nat ->
  agree p (num (n_first y)) v <-> pre (firstn p (msb 128 v)) (path y).
Proof.
  intros W V P. pose proof (w_prefix y W) as P8.
  assert (Lf : length (firstn p (msb 128 v)) = p) by (rewrite firstn_length, msb_length; lia).
  rewrite pre_firstn, Lf. rewrite path_firstn_lo by auto. rewrite firstn_firstn. replace (Nat.min p (n_prefix y)) with p by lia.
  unfold agree. change (num (n_first y)) with (lo y). split.
  - intros A. apply nth_ext with (d := false) (d' := false); [now rewrite !firstn_length, !msb_length|].
    rewrite firstn_length, msb_length. intros i Hi. rewrite !nth_firstn_lt' by lia. rewrite !msb_nth by lia. apply A; lia.
  - intros E i Hi _. assert (nth i (firstn p (msb 128 (lo y))) false = nth i (firstn p (msb 128 v)) false) as Q by now rewrite E.
    rewrite !nth_firstn_lt' in Q by lia. rewrite !msb_nth in Q by lia.
    replace (128 - 1 - i)%nat with (127 - i)%nat in Q by lia. exact Q.
Qed.

Lemma pre_firstn_le p q : pre p q -> forall k, (k <= length p)%nat -> firstn k q = firstn k p.
Proof. intros [r ->] k H. rewrite firstn_app. replace (k - length p)%nat with 0%nat by lia. cbn [firstn]. now rewrite app_nil_r. Qed.

Lemma last_at_reached t v x : tree_ok t -> clean t -> v < 2 ^ 128 ->
  last_at t (msb 128 v) = Some x <-> reached (stored t) v x.
Proof.
  intros T C V. rewrite last_at_iff, msb_length. pose proof (proj1 T) as W. split.
  - intros (r & P & E & U). destruct (wf_nt [] t r x W E) as [Wx Px]. cbn [app] in Px. subst r.
    split; [apply stored_path; auto|].
    split; [apply member_inb, inb_path; auto|].
    intros y I L A. pose proof (stored_wf t y T I) as Wy. pose proof (w_prefix y Wy).
    rewrite path_length in U. apply agree_path in A; auto; [|lia].
    replace (n_prefix x + 1)%nat with (S (n_prefix x)) in A by lia. specialize (U ltac:(lia)).
    apply stored_path in I; auto. destruct A as [p A]. rewrite A in I.
    unfold nt in I. now rewrite sub_app, U, sub_nil in I.
  - intros (I & M & U). pose proof (stored_wf t x T I) as Wx. apply member_inb, inb_path in M; auto.
    exists (path x). split; auto. split; [now apply stored_path|]. rewrite path_length. intros L.
    destruct (sub t (firstn (S (n_prefix x)) (msb 128 v))) as [|dl n z o] eqn:E; auto. exfalso.
    assert (E' : sub t (firstn (S (n_prefix x)) (msb 128 v)) <> Nil) by (rewrite E; discriminate).
    destruct (firstn (S (n_prefix x)) (msb 128 v)) as [|b p] eqn:F.
    { apply (f_equal (@length bool)) in F. rewrite firstn_length, msb_length in F. cbn [length] in F. lia. }
    destruct (clean_some t b p C E') as (r & y & Ny). rewrite <- F in Ny.
    destruct (wf_nt [] t _ y W Ny) as [Wy Py]. cbn [app] in Py.
    assert (Ly : (n_prefix x < n_prefix y)%nat).
    { rewrite <- (path_length y), Py, app_length, firstn_length, msb_length. lia. }
    apply (U y); [|exact Ly|].
    + apply stored_nt. eauto.
    + apply agree_path; auto; [lia|]. replace (n_prefix x + 1)%nat with (S (n_prefix x)) by lia. rewrite Py. apply pre_app.
Qed.

(** What is reached is the most specific network. *)
Lemma reached_most_specific Ns v x : v < 2 ^ 128 -> (forall y, In y Ns -> net_wf y) -> reached Ns v x -> most_specific Ns v x.
Proof.
  intros V Wf (I & M & U). split; auto. split; auto. intros y Iy My.
  destruct (Nat.le_gt_cases (n_prefix y) (n_prefix x)) as [|G]; auto. exfalso. apply (U y Iy G).
  pose proof (Wf y Iy) as Wy. apply agree_path; auto; [lia|]. apply member_inb, inb_path in My; auto.
  apply pre_comparable with (r := msb 128 v); auto.
  - exists (skipn (n_prefix x + 1) (msb 128 v)). now rewrite firstn_skipn.
  - rewrite firstn_length, path_length. lia.
Qed.

(** The converse when nothing is stored inside it. *)
Lemma most_specific_reached Ns v x : v < 2 ^ 128 -> (forall y, In y Ns -> net_wf y) -> most_specific Ns v x ->
  (forall y, In y Ns -> ~ encloses x y) -> reached Ns v x.
Proof.
  intros V Wf (I & M & U) D. split; auto. split; auto. intros y Iy L A. apply (D y Iy). split; auto.
  pose proof (Wf y Iy) as Wy. pose proof (Wf x I) as Wx. pose proof (w_prefix y Wy).
  intros u Mu. apply agree_path in A; auto; [|lia].
  apply member_inb in M. apply inb_path in M; auto.
  change (inb y u) in Mu. change (inb x u).
  assert (u < 2 ^ 128) by (pose proof (hi_bound y Wy); unfold inb in Mu; lia).
  apply inb_path; auto. apply inb_path in Mu; auto. eapply pre_trans; [|exact Mu].
  eapply pre_trans; [|exact A]. apply pre_comparable with (r := msb 128 v); auto.
  - exists (skipn (n_prefix x + 1) (msb 128 v)). now rewrite firstn_skipn.
  - rewrite path_length, firstn_length, msb_length. lia.
Qed.
