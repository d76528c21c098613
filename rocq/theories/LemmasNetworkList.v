(** The array-based network list refines a strictly sorted list. *)
From Coq Require Import NArith ZArith List Bool Arith Lia ZifyBool ZifyNat ZifyN Sorting.Sorted.
From Verif Require Import Base LemmasBase ModelAddress LemmasAddress ModelCountryCode ModelNetwork
  LemmasNetwork ModelNetworkList.
Import ListNotations.
Open Scope N_scope.

Definition klt (a b : network) : Prop := K a < K b.

Record sorted (l : list network) : Prop := {
  s_wf : Forall net_wf l;
  s_sorted : StronglySorted klt l
}.

Definition repr (L : nlist) (l : list network) : Prop :=
  nsize L = length l /\ exists rest, slots L = map Some l ++ rest.

(** the operations on sorted lists *)
Fixpoint ins (n : network) (l : list network) : list network :=
  match l with
  | [] => [n]
  | x :: l' => if K n <? K x then n :: l else if K n =? K x then l else x :: ins n l'
  end.

Definition del (n : network) (l : list network) : list network :=
  filter (fun x => negb (K x =? K n)) l.

Definition mem (n : network) (l : list network) : bool := existsb (fun x => K x =? K n) l.

Definition dnet : network := mkNet AF_INET6 [] [] 0 (0, 0) 0 0.

(** array access *)
Lemma read_elem_app l rest i : (i < length l)%nat ->
  read_elem (map Some l ++ rest) i = Ok (nth i l dnet).
Proof.
  intros H. unfold read_elem. rewrite nth_error_app1 by now rewrite map_length.
  rewrite nth_error_map. rewrite (nth_error_nth' l dnet H). reflexivity.
Qed.

Lemma upd_mid {A} (l1 : list A) x y l2 : upd (l1 ++ x :: l2) (length l1) y = l1 ++ y :: l2.
Proof. induction l1; cbn; congruence. Qed.

Lemma write_slot_mid l1 x l2 y i : i = length l1 -> write_slot (l1 ++ x :: l2) i y = Ok (l1 ++ y :: l2).
Proof.
  intros ->. unfold write_slot. rewrite app_length. cbn [length].
  replace (length l1 <? length l1 + S (length l2))%nat with true by lia. now rewrite upd_mid.
Qed.

Lemma read_slot_mid l1 x l2 i : i = length l1 -> read_slot (l1 ++ x :: l2) i = Ok x.
Proof. intros ->. unfold read_slot. rewrite nth_error_app2 by lia. now rewrite Nat.sub_diag. Qed.

Lemma shift_up_spec B : forall A x C,
  exists y, shift_up (A ++ B ++ x :: C) (length A) (length B) = Ok (A ++ y :: B ++ C).
Proof.
  induction B as [|b B IH] using rev_ind; intros A x C.
  - exists x. reflexivity.
  - rewrite app_length, Nat.add_1_r. cbn [shift_up].
    rewrite <- !app_assoc. cbn [app].
    replace (A ++ B ++ b :: x :: C) with ((A ++ B) ++ b :: x :: C) by now rewrite app_assoc.
    rewrite read_slot_mid by (rewrite app_length; lia). cbn [bind].
    replace ((A ++ B) ++ b :: x :: C) with ((A ++ B ++ [b]) ++ x :: C) by (rewrite <- !app_assoc; reflexivity).
    rewrite write_slot_mid by (rewrite !app_length; cbn; lia). cbn [bind].
    rewrite <- !app_assoc. cbn [app].
    destruct (IH A b (b :: C)) as [y ->]. exists y. reflexivity.
Qed.

Lemma shift_down_spec B : forall A x C,
  exists y, shift_down (A ++ x :: B ++ C) (length A) (length B) = Ok (A ++ B ++ y :: C).
Proof.
  induction B as [|b B IH]; intros A x C.
  - exists x. reflexivity.
  - cbn [length shift_down app].
    replace (A ++ x :: b :: B ++ C) with ((A ++ [x]) ++ b :: B ++ C) by (rewrite <- app_assoc; reflexivity).
    rewrite read_slot_mid by (rewrite app_length; cbn; lia). cbn [bind].
    rewrite <- app_assoc. cbn [app]. rewrite write_slot_mid by auto. cbn [bind].
    replace (A ++ b :: b :: B ++ C) with ((A ++ [b]) ++ b :: B ++ C) by (rewrite <- app_assoc; reflexivity).
    replace (S (length A)) with (length (A ++ [b])) by (rewrite app_length; cbn; lia).
    destruct (IH (A ++ [b]) b C) as [y ->]. exists y. rewrite <- app_assoc. reflexivity.
Qed.

Lemma forget_app l rest : exists rest', forget (length l) (map Some l ++ rest) = map Some l ++ rest'.
Proof.
  unfold forget. rewrite firstn_app, map_length, Nat.sub_diag. cbn [firstn]. rewrite app_nil_r.
  rewrite firstn_all2 by (rewrite map_length; lia). eauto.
Qed.

(** sorted lists *)
Lemma sorted_nil : sorted [].
Proof. split; constructor. Qed.

Lemma sorted_cons x l : sorted (x :: l) <-> net_wf x /\ (forall y, In y l -> K x < K y) /\ sorted l.
Proof.
  split.
  - intros [W S]. inversion W as [|? ? W1 W2]; subst. inversion S as [|? ? S1 S2]; subst.
    split; [auto|]. split; [now rewrite Forall_forall in S2|now split].
  - intros (W & F & [Ws S]). split; constructor; auto. now apply Forall_forall.
Qed.

Lemma sorted_wf l n : sorted l -> In n l -> net_wf n.
Proof. intros [W _]. rewrite Forall_forall in W. auto. Qed.

Lemma sorted_app l1 l2 : sorted (l1 ++ l2) <->
  sorted l1 /\ sorted l2 /\ (forall x y, In x l1 -> In y l2 -> K x < K y).
Proof.
  induction l1 as [|a l1 IH]; cbn [app].
  - split; [|tauto]. intros. split; [apply sorted_nil|]. split; auto. intros x y [].
  - rewrite !sorted_cons, IH. split.
    + intros (W & F & S1 & S2 & X). split; [|split; auto].
      * split; auto. split; auto. intros y Hy. apply F, in_or_app. auto.
      * intros x y [<-|Hx] Hy; auto. apply F, in_or_app. auto.
    + intros ((W & F & S1) & S2 & X). split; auto. split; [|split; auto].
      * intros y Hy. apply in_app_or in Hy as [Hy|Hy]; auto. apply X; cbn; auto.
      * split; auto. intros x y Hx Hy. apply X; cbn; auto.
Qed.

Lemma sorted_nth l i j : sorted l -> (i < j < length l)%nat -> K (nth i l dnet) < K (nth j l dnet).
Proof.
  revert i j. induction l as [|a l IH]; intros i j S H; cbn [length] in H; [lia|].
  apply sorted_cons in S as (W & F & S). destruct j; [lia|]. cbn [nth]. destruct i; cbn [nth].
  - apply F, nth_In. lia.
  - apply IH; auto. lia.
Qed.

Lemma sorted_inj l x y : sorted l -> In x l -> In y l -> K x = K y -> x = y.
Proof.
  induction l as [|a l IH]; intros S Hx Hy E; [destruct Hx|].
  apply sorted_cons in S as (W & F & S).
  destruct Hx as [->|Hx], Hy as [->|Hy]; auto.
  - specialize (F _ Hy). lia.
  - specialize (F _ Hx). lia.
Qed.

Lemma mem_iff n l : mem n l = true <-> exists x, In x l /\ K x = K n.
Proof.
  unfold mem. rewrite existsb_exists. split; intros (x & H & E); exists x; split; auto; lia.
Qed.

Lemma mem_false_iff n l : mem n l = false <-> forall x, In x l -> K x <> K n.
Proof.
  split.
  - intros H x Hx E. assert (mem n l = true) by (apply mem_iff; eauto). congruence.
  - intros H. destruct (mem n l) eqn:E; auto. apply mem_iff in E as (x & Hx & E). now apply H in Hx.
Qed.

Lemma ins_in n l x : In x (ins n l) -> x = n \/ In x l.
Proof.
  induction l; cbn [ins]; [cbn; intuition|].
  destruct (N.ltb_spec (K n) (K a)); [cbn; intuition|].
  destruct (N.eqb_spec (K n) (K a)); [cbn; intuition|]. cbn. intuition.
Qed.

Lemma ins_in_old n l x : In x l -> In x (ins n l).
Proof.
  induction l; cbn [ins]; [cbn; intuition|].
  destruct (N.ltb_spec (K n) (K a)); [cbn; intuition|].
  destruct (N.eqb_spec (K n) (K a)); [cbn; intuition|]. cbn. intuition.
Qed.

Lemma ins_mem n l : mem n l = true -> sorted l -> ins n l = l.
Proof.
  induction l; cbn [mem existsb ins]; [discriminate|]. intros M S.
  apply sorted_cons in S as (W & F & S).
  destruct (N.ltb_spec (K n) (K a)).
  - exfalso. apply orb_true_iff in M as [M|M]; [lia|]. apply mem_iff in M as (x & Hx & E).
    specialize (F _ Hx). lia.
  - destruct (N.eqb_spec (K n) (K a)); auto. f_equal. apply IHl; auto.
    apply orb_true_iff in M as [M|M]; auto. lia.
Qed.

Lemma ins_new n l : mem n l = false -> In n (ins n l).
Proof.
  induction l; cbn [mem existsb ins]; [cbn; auto|]. intros M.
  destruct (N.ltb_spec (K n) (K a)); [cbn; auto|].
  destruct (N.eqb_spec (K n) (K a)); [exfalso; apply orb_false_iff in M as [M _]; lia|].
  right. apply IHl. apply orb_false_iff in M as [_ M]. auto.
Qed.

Lemma sorted_ins n l : net_wf n -> sorted l -> sorted (ins n l).
Proof.
  intros Wn. induction l as [|a l IH]; intros S; cbn [ins].
  - apply sorted_cons. split; auto. split; [intros y []|apply sorted_nil].
  - pose proof S as S0. apply sorted_cons in S as (W & F & S).
    destruct (N.ltb_spec (K n) (K a)).
    + apply sorted_cons. split; auto. split; auto. intros y [<-|Hy]; auto. specialize (F _ Hy). lia.
    + destruct (N.eqb_spec (K n) (K a)); auto.
      apply sorted_cons. split; auto. split; auto. intros y Hy. apply ins_in in Hy as [->|Hy]; auto. lia.
Qed.

Lemma ins_split n l i : (i <= length l)%nat ->
  (forall j, (j < i)%nat -> K (nth j l dnet) < K n) ->
  (forall j, (i <= j < length l)%nat -> K n < K (nth j l dnet)) ->
  ins n l = firstn i l ++ n :: skipn i l /\ mem n l = false.
Proof.
  revert i. induction l as [|a l IH]; intros i Hi H1 H2; cbn [length] in *.
  - replace i with 0%nat by lia. auto.
  - destruct i.
    + specialize (H2 0%nat ltac:(lia)) as H0. cbn [nth] in H0. cbn [ins firstn skipn app].
      replace (K n <? K a) with true by lia. split; auto.
      apply mem_false_iff. intros x Hx E. apply In_nth with (d := dnet) in Hx as (j & Hj & <-).
      cbn [length] in Hj. specialize (H2 j ltac:(lia)). lia.
    + specialize (H1 0%nat ltac:(lia)) as H0. cbn [nth] in H0. cbn [ins firstn skipn app].
      replace (K n <? K a) with false by lia. replace (K n =? K a) with false by lia.
      destruct (IH i) as [E M]; try lia.
      * intros j Hj. apply (H1 (S j)). lia.
      * intros j Hj. apply (H2 (S j)). lia.
      * rewrite E. split; auto. cbn [mem existsb]. fold (mem n l). rewrite M. lia.
Qed.

Lemma del_split n l i : sorted l -> (i < length l)%nat -> K (nth i l dnet) = K n ->
  del n l = firstn i l ++ skipn (S i) l.
Proof.
  revert i. induction l as [|a l IH]; intros i S Hi E; cbn [length] in *; [lia|].
  apply sorted_cons in S as (W & F & S). unfold del. cbn [filter]. destruct i.
  - cbn [nth] in E. rewrite E, N.eqb_refl. cbn [negb firstn app skipn].
    clear IH Hi. assert (forall x, In x l -> K x <> K n) as G by (intros x Hx; specialize (F x Hx); lia).
    clear -G. induction l; auto. cbn [filter].
    assert (K a <> K n) by (apply G; cbn; auto). destruct (N.eqb_spec (K a) (K n)); [lia|].
    cbn [negb]. f_equal. apply IHl. intros; apply G; cbn; auto.
  - cbn [nth] in E. assert (K a < K (nth i l dnet)) by (apply F, nth_In; lia).
    destruct (N.eqb_spec (K a) (K n)); [lia|]. cbn [negb firstn app skipn]. f_equal.
    fold (del n l). rewrite (IH i); auto; lia.
Qed.

Lemma del_none n l : mem n l = false -> del n l = l.
Proof.
  intros M. rewrite mem_false_iff in M. unfold del. induction l; auto. cbn [filter].
  assert (K a <> K n) by (apply M; cbn; auto). destruct (N.eqb_spec (K a) (K n)); [lia|].
  cbn [negb]. f_equal. apply IHl. intros; apply M; cbn; auto.
Qed.

Lemma del_in n l x : In x (del n l) <-> In x l /\ K x <> K n.
Proof. unfold del. rewrite filter_In. split; intros [H E]; split; auto; lia. Qed.

Lemma sorted_filter f l : sorted l -> sorted (filter f l).
Proof.
  induction l as [|a l IH]; intros S; cbn [filter]; auto.
  apply sorted_cons in S as (W & F & S). destruct (f a); auto.
  apply sorted_cons. split; auto. split; auto. intros y Hy. apply filter_In in Hy as [Hy _]. auto.
Qed.

Lemma sorted_del n l : sorted l -> sorted (del n l).
Proof. apply sorted_filter. Qed.

(** binary search *)
Lemma find_loop_spec l rest n : sorted l -> net_wf n -> forall fuel lo hi i,
  (0 <= lo)%Z -> (hi < Z.of_nat (length l))%Z -> (lo <= hi + 1)%Z -> (lo <= hi \/ i = lo)%Z ->
  (hi - lo + 1 <= Z.of_nat fuel)%Z ->
  (forall j, (Z.of_nat j < lo)%Z -> K (nth j l dnet) < K n) ->
  (forall j, (hi < Z.of_nat j)%Z -> (j < length l)%nat -> K n < K (nth j l dnet)) ->
  exists k b, find_loop (map Some l ++ rest) n lo hi i fuel = Ok (k, b) /\
    if (b : bool) then (k < length l)%nat /\ K (nth k l dnet) = K n
    else (k <= length l)%nat /\ (forall j, (j < k)%nat -> K (nth j l dnet) < K n) /\
         (forall j, (k <= j < length l)%nat -> K n < K (nth j l dnet)).
Proof.
  intros So Wn. induction fuel; intros lo hi i H0 H1 H2 H3 Hf HL HR; cbn [find_loop].
  - replace (lo <=? hi)%Z with false by lia. assert (i = lo) as -> by lia.
    eexists _, false. split; [reflexivity|]. cbv iota.
    split; [lia|]. split; intros j Hj; [apply HL|apply HR]; lia.
  - destruct (Z.leb_spec lo hi).
    + set (m := ((lo + hi) / 2)%Z).
      assert (lo <= m <= hi)%Z.
      { subst m. pose proof (Z.div_mod (lo + hi) 2 ltac:(lia)).
        pose proof (Z.mod_pos_bound (lo + hi) 2 ltac:(lia)). lia. }
      rewrite read_elem_app by lia. cbn [bind].
      assert (We : net_wf (nth (Z.to_nat m) l dnet)) by (apply (sorted_wf l); auto; apply nth_In; lia).
      rewrite network_cmp_0, network_cmp_pos by auto.
      destruct (N.eqb_spec (K n) (K (nth (Z.to_nat m) l dnet))).
      * eexists _, true. split; [reflexivity|]. cbv iota. split; [lia|auto].
      * destruct (N.ltb_spec (K (nth (Z.to_nat m) l dnet)) (K n)).
        -- apply IHfuel; try lia; auto.
           intros j Hj. destruct (Nat.eq_dec j (Z.to_nat m)) as [->|]; auto.
           assert (K (nth j l dnet) < K (nth (Z.to_nat m) l dnet)) by (apply sorted_nth; auto; lia). lia.
        -- apply IHfuel; try lia; auto.
           intros j Hj Hl. destruct (Nat.eq_dec j (Z.to_nat m)) as [->|]; [lia|].
           assert (K (nth (Z.to_nat m) l dnet) < K (nth j l dnet)) by (apply sorted_nth; auto; lia). lia.
    + assert (i = lo) as -> by lia.
      eexists _, false. split; [reflexivity|]. cbv iota.
      split; [lia|]. split; intros j Hj; [apply HL|apply HR]; lia.
Qed.

Lemma list_find_spec L l n : repr L l -> sorted l -> net_wf n ->
  exists k, list_find L n = Ok (k, mem n l) /\
    if mem n l then (k < length l)%nat /\ K (nth k l dnet) = K n
    else (k <= length l)%nat /\ (forall j, (j < k)%nat -> K (nth j l dnet) < K n) /\
         (forall j, (k <= j < length l)%nat -> K n < K (nth j l dnet)).
Proof.
  intros [Hs [rest Hr]] So Wn. unfold list_find, list_empty. rewrite Hs, Hr.
  assert (X : exists k b, (if (length l =? 0)%nat then Ok (0%nat, false)
     else do e <- read_elem (map Some l ++ rest) (length l - 1);
       let result := network_cmp n e in
       if (result =? 0)%Z then Ok ((length l - 1)%nat, true)
       else if (0 <? result)%Z then Ok ((length l - 1 + 1)%nat, false)
       else find_loop (map Some l ++ rest) n 0 (Z.of_nat (length l - 1)) 0 (length l + 1)) = Ok (k, b) /\
    if (b : bool) then (k < length l)%nat /\ K (nth k l dnet) = K n
    else (k <= length l)%nat /\ (forall j, (j < k)%nat -> K (nth j l dnet) < K n) /\
         (forall j, (k <= j < length l)%nat -> K n < K (nth j l dnet))).
  { destruct (Nat.eqb_spec (length l) 0) as [E|E].
    - exists 0%nat, false. split; auto. cbv iota. split; [lia|]. split; intros; lia.
    - rewrite read_elem_app by lia. cbn [bind]. cbv zeta.
      assert (We : net_wf (nth (length l - 1) l dnet)) by (apply (sorted_wf l); auto; apply nth_In; lia).
      rewrite network_cmp_0, network_cmp_pos by auto.
      destruct (N.eqb_spec (K n) (K (nth (length l - 1) l dnet))).
      + eexists _, true. split; [reflexivity|]. cbv iota. split; [lia|auto].
      + destruct (N.ltb_spec (K (nth (length l - 1) l dnet)) (K n)).
        * eexists _, false. split; [reflexivity|]. cbv iota. split; [lia|]. split; [|intros; lia].
          intros j Hj. destruct (Nat.eq_dec j (length l - 1)) as [->|]; auto.
          assert (K (nth j l dnet) < K (nth (length l - 1) l dnet)) by (apply sorted_nth; auto; lia). lia.
        * apply find_loop_spec; auto; try lia; intros; lia. }
  destruct X as (k & b & X & Hb). cbv zeta in X |- *. rewrite X.
  assert (b = mem n l) as ->.
  { destruct b.
    - symmetry. apply mem_iff. exists (nth k l dnet). split; [apply nth_In|]; tauto.
    - symmetry. apply (ins_split n l k); tauto. }
  eauto.
Qed.

Lemma list_contains_spec L l n : repr L l -> sorted l -> net_wf n -> list_contains L n = Ok (mem n l).
Proof.
  intros R So W. destruct (list_find_spec L l n R So W) as (k & E & _).
  unfold list_contains. now rewrite E.
Qed.

Lemma list_new_repr : repr list_new [].
Proof. split; auto. exists []. reflexivity. Qed.

Lemma list_push_spec L l n : repr L l -> sorted l -> net_wf n ->
  exists L', list_push L n = Ok L' /\ repr L' (ins n l).
Proof.
  intros R So W. destruct (list_find_spec L l n R So W) as (k & E & Hk).
  unfold list_push. rewrite E. cbn [bind]. destruct (mem n l) eqn:M.
  - exists L. split; auto. now rewrite ins_mem.
  - destruct Hk as (K1 & K2 & K3). destruct (ins_split n l k K1 K2 K3) as [Ei _]. rewrite Ei.
    destruct R as [Hs [rest Hr]].
    assert (X : exists x rest', slots (if (length (slots L) <=? nsize L)%nat then list_grow L else L)
                 = map Some l ++ x :: rest' /\
                 nsize (if (length (slots L) <=? nsize L)%nat then list_grow L else L) = length l).
    { destruct (Nat.leb_spec (length (slots L)) (nsize L)) as [G|G].
      - unfold list_grow. cbn [slots nsize].
        set (size := if (length (slots L) * 2 <? 1024)%nat then 1024%nat else (length (slots L) * 2)%nat).
        assert (0 < size)%nat by (subst size; destruct (Nat.ltb_spec (length (slots L) * 2) 1024); lia).
        rewrite Hr in *. rewrite app_length, map_length in G.
        assert (rest = []) as -> by (destruct rest; auto; cbn in G; lia).
        rewrite app_nil_r. destruct size; [lia|]. eexists _, _. split; [reflexivity|auto].
      - rewrite Hr in *. rewrite app_length, map_length in G. destruct rest as [|x rest]; [cbn in G; lia|].
        eexists _, _. split; [reflexivity|auto]. }
    destruct X as (x & rest' & Xs & Xn). cbv zeta. rewrite Xs, Xn.
    replace (map Some l) with (map Some (firstn k l) ++ map Some (skipn k l))
      by (rewrite <- map_app, firstn_skipn; auto). rewrite <- app_assoc.
    replace (S (length l) - 1 - k)%nat with (length (map Some (skipn k l))) by (rewrite map_length, skipn_length; lia).
    destruct (shift_up_spec (map Some (skipn k l)) (map Some (firstn k l)) x rest') as [y Y].
    replace (length (map Some (firstn k l))) with k in Y by (rewrite map_length, firstn_length; lia). rewrite Y.
    cbn [bind]. rewrite write_slot_mid by (rewrite map_length, firstn_length; lia). cbn [bind].
    eexists. split; [reflexivity|]. split; cbn [nsize slots].
    + rewrite app_length. cbn [length]. rewrite firstn_length, skipn_length. lia.
    + exists rest'. rewrite map_app. cbn [map]. rewrite <- app_assoc. reflexivity.
Qed.

Lemma list_pop_spec L l : repr L l ->
  (l = [] /\ list_pop L = Ok (None, L)) \/
  (exists l' n, l = l' ++ [n] /\ exists L', list_pop L = Ok (Some n, L') /\ repr L' l').
Proof.
  intros [Hs [rest Hr]]. destruct l as [|n l' _] using rev_ind.
  - left. split; auto. unfold list_pop, list_empty. rewrite Hs. reflexivity.
  - right. exists l', n. split; auto. unfold list_pop, list_empty. rewrite Hs, Hr.
    rewrite app_length. cbn [length]. replace (length l' + 1 =? 0)%nat with false by lia.
    rewrite read_elem_app by (rewrite app_length; cbn; lia). cbn [bind].
    replace (length l' + 1 - 1)%nat with (length l') by lia.
    rewrite app_nth2, Nat.sub_diag by lia. cbn [nth].
    eexists. split; [reflexivity|]. split; auto. cbn [slots]. rewrite map_app, <- app_assoc. apply forget_app.
Qed.

Lemma list_pop_first_spec L l : repr L l ->
  (l = [] /\ list_pop_first L = Ok (None, L)) \/
  (exists l' n, l = n :: l' /\ exists L', list_pop_first L = Ok (Some n, L') /\ repr L' l').
Proof.
  intros [Hs [rest Hr]]. destruct l as [|n l'].
  - left. split; auto. unfold list_pop_first, list_empty. rewrite Hs. reflexivity.
  - right. exists l', n. split; auto. unfold list_pop_first, list_empty. rewrite Hs, Hr.
    cbn [length]. replace (S (length l') =? 0)%nat with false by lia.
    rewrite read_elem_app by (cbn; lia). cbn [bind nth].
    replace (S (length l') - 1)%nat with (length (map Some l')) by (rewrite map_length; lia).
    destruct (shift_down_spec (map Some l') [] (Some n) rest) as [y E]. cbn [app length] in E.
    cbn [map app]. rewrite E. cbn [bind].
    eexists. split; [reflexivity|]. split; cbn [nsize slots]; [now rewrite map_length|].
    rewrite map_length. apply forget_app.
Qed.

Lemma list_remove_spec L l n : repr L l -> sorted l -> net_wf n ->
  exists L', list_remove L n = Ok L' /\ repr L' (del n l).
Proof.
  intros R So W. destruct (list_find_spec L l n R So W) as (k & E & Hk).
  unfold list_remove. rewrite E. cbn [bind]. destruct (mem n l) eqn:M; cbn [negb].
  - destruct Hk as [K1 K2]. rewrite (del_split n l k) by auto. destruct R as [Hs [rest Hr]].
    rewrite Hs, Hr. rewrite read_elem_app by auto. cbn [bind].
    assert (El : l = firstn k l ++ nth k l dnet :: skipn (S k) l).
    { rewrite <- (firstn_skipn k l) at 1. f_equal. clear -K1. revert k K1.
      induction l; intros [|k] H; cbn [length] in *; try lia; auto. cbn. apply IHl. lia. }
    replace (map Some l) with (map Some (firstn k l) ++ Some (nth k l dnet) :: map Some (skipn (S k) l))
      by (rewrite El at 4; rewrite map_app; reflexivity).
    rewrite <- app_assoc. cbn [app].
    replace (length l - 1 - k)%nat with (length (map Some (skipn (S k) l))) by (rewrite map_length, skipn_length; lia).
    destruct (shift_down_spec (map Some (skipn (S k) l)) (map Some (firstn k l)) (Some (nth k l dnet)) rest) as [y Y].
    replace (length (map Some (firstn k l))) with k in Y by (rewrite map_length, firstn_length; lia). rewrite Y.
    cbn [bind]. eexists. split; [reflexivity|]. split; cbn [nsize slots].
    + rewrite app_length, firstn_length, skipn_length. lia.
    + rewrite app_assoc, <- map_app. replace (length l - 1)%nat with (length (firstn k l ++ skipn (S k) l))
        by (rewrite app_length, firstn_length, skipn_length; lia). apply forget_app.
  - exists L. split; auto. now rewrite del_none.
Qed.

Lemma clear_loop_spec l rest : forall n i, (i + n <= length l)%nat ->
  clear_loop (map Some l ++ rest) i n = Ok tt.
Proof.
  induction n; intros i H; cbn [clear_loop]; auto. rewrite read_elem_app by lia. cbn [bind].
  apply IHn. lia.
Qed.

Lemma list_clear_spec L l : repr L l -> exists L', list_clear L = Ok L' /\ repr L' [].
Proof.
  intros [Hs [rest Hr]]. unfold list_clear. destruct (slots L) eqn:E.
  - exists L. split; auto. destruct l; [|discriminate]. split; auto. exists rest. congruence.
  - rewrite Hr. rewrite clear_loop_spec by lia. cbn [bind]. eexists. split; [reflexivity|].
    split; auto. exists []. reflexivity.
Qed.

Lemma list_get_spec L l i : repr L l -> list_get L i = Ok (nth_error l i).
Proof.
  intros [Hs [rest Hr]]. unfold list_get. rewrite Hs, Hr.
  destruct (Nat.leb_spec (length l) i).
  - symmetry. f_equal. now apply nth_error_None.
  - rewrite read_elem_app by auto. cbn [bind]. now rewrite (nth_error_nth' l dnet).
Qed.

Definition ins_all (l : list network) (ns : list network) : list network :=
  fold_left (fun l n => ins n l) ns l.

Lemma sorted_ins_all ns : forall l, sorted l -> Forall net_wf ns -> sorted (ins_all l ns).
Proof.
  induction ns; intros l So F; cbn [ins_all fold_left]; auto. inversion F; subst.
  apply IHns; auto. now apply sorted_ins.
Qed.

Lemma skipn_nth_cons {A} (l : list A) i d : (i < length l)%nat -> skipn i l = nth i l d :: skipn (S i) l.
Proof. revert i; induction l; intros [|i] H; cbn [length] in *; try lia; auto. cbn. apply IHl. lia. Qed.

Lemma merge_loop_spec other lo' : repr other lo' -> Forall net_wf lo' -> forall n i L l,
  (i + n = length lo')%nat -> repr L l -> sorted l ->
  exists L', merge_loop L other i n = Ok L' /\ repr L' (ins_all l (skipn i lo')).
Proof.
  intros [Hs [rest Hr]] F. induction n; intros i L l Hi R So; cbn [merge_loop].
  - exists L. split; auto. rewrite skipn_all2 by lia. auto.
  - rewrite Hr, read_elem_app by lia. cbn [bind].
    assert (W : net_wf (nth i lo' dnet)).
    { rewrite Forall_forall in F. apply F, nth_In. lia. }
    destruct (list_push_spec L l _ R So W) as (L1 & -> & R1). cbn [bind].
    destruct (IHn (S i) L1 (ins (nth i lo' dnet) l) ltac:(lia) R1 (sorted_ins _ _ W So)) as (L2 & E & R2).
    exists L2. split; auto. rewrite (skipn_nth_cons lo' i dnet) by lia. exact R2.
Qed.

Lemma list_merge_spec L l other lo' : repr L l -> sorted l -> repr other lo' -> Forall net_wf lo' ->
  exists L', list_merge L other = Ok L' /\ repr L' (ins_all l lo').
Proof.
  intros R So Ro F. unfold list_merge. destruct Ro as [Hs Hr]. rewrite Hs.
  apply (merge_loop_spec other lo' (conj Hs Hr) F (length lo') 0); auto.
Qed.

Lemma filter_length_le {A} (f : A -> bool) l : (length (filter f l) <= length l)%nat.
Proof. induction l; cbn [filter length]; [lia|]. destruct (f a); cbn [length]; lia. Qed.

Definition drop_long (prefix : N) (l : list network) : list network :=
  filter (fun x => negb (prefix <? network_prefix x)) l.

Lemma rm_loop_spec prefix todo : forall kept J rest i removed,
  i = (length kept + length J)%nat -> removed = length J ->
  exists J', rm_loop (map Some kept ++ J ++ map Some todo ++ rest) prefix i removed (length todo)
    = Ok (map Some (kept ++ drop_long prefix todo) ++ J' ++ rest, length J') /\
    (length J' = length J + (length todo - length (drop_long prefix todo)))%nat.
Proof.
  induction todo as [|e todo IH]; intros kept J rest i removed -> ->; cbn [rm_loop length map app].
  - exists J. cbn [drop_long filter]. rewrite app_nil_r. split; auto.
  - assert (R : read_elem (map Some kept ++ J ++ Some e :: map Some todo ++ rest) (length kept + length J) = Ok e).
    { unfold read_elem. rewrite app_assoc, nth_error_app2 by (rewrite app_length, map_length; lia).
      rewrite app_length, map_length, Nat.sub_diag. reflexivity. }
    rewrite R. cbn [bind]. unfold drop_long. cbn [filter].
    destruct (prefix <? network_prefix e) eqn:P; cbn [negb].
    + replace (J ++ Some e :: map Some todo ++ rest) with ((J ++ [Some e]) ++ map Some todo ++ rest)
        by (rewrite <- app_assoc; reflexivity).
      destruct (IH kept (J ++ [Some e]) rest (S (length kept + length J)) (S (length J))) as (J' & E & Lj);
        try (rewrite app_length; cbn; lia).
      exists J'. fold (drop_long prefix todo). split; auto. rewrite Lj, app_length. cbn [length].
      assert (length (drop_long prefix todo) <= length todo)%nat by apply filter_length_le. lia.
    + replace (length kept + length J - length J)%nat with (length (map Some kept)) by (rewrite map_length; lia).
      fold (drop_long prefix todo).
      destruct J as [|j J].
      * cbn [app]. rewrite write_slot_mid by auto. cbn [bind length].
        destruct (IH (kept ++ [e]) [] rest (S (length kept + 0)) 0%nat) as (J' & E & Lj);
          try (rewrite ?app_length; cbn; lia).
        rewrite map_app in E. cbn [map app] in E. rewrite <- app_assoc in E. cbn [app] in E. rewrite E.
        exists J'. rewrite <- app_assoc. split; auto.
      * cbn [app]. rewrite write_slot_mid by auto. cbn [bind].
        replace (map Some kept ++ Some e :: J ++ Some e :: map Some todo ++ rest)
          with (map Some (kept ++ [e]) ++ (J ++ [Some e]) ++ map Some todo ++ rest)
          by (rewrite map_app, <- !app_assoc; reflexivity).
        destruct (IH (kept ++ [e]) (J ++ [Some e]) rest (S (length kept + length (j :: J))) (length (j :: J))) as (J' & E & Lj);
          try (rewrite ?app_length; cbn; lia).
        rewrite E. exists J'. rewrite <- app_assoc. split; auto.
        rewrite Lj, app_length. cbn [length]. lia.
Qed.

Lemma list_rm_spec L l prefix : repr L l ->
  exists L', list_remove_with_prefix_smaller_than L prefix = Ok L' /\ repr L' (drop_long prefix l).
Proof.
  intros [Hs [rest Hr]]. unfold list_remove_with_prefix_smaller_than. rewrite Hs, Hr.
  destruct (rm_loop_spec prefix l [] [] rest 0 0 eq_refl eq_refl) as (J & E & Lj).
  cbn [map app length] in E, Lj. rewrite E. cbn [bind].
  eexists. split; [reflexivity|]. split; cbn [nsize slots].
  - assert (length (drop_long prefix l) <= length l)%nat by apply filter_length_le. lia.
  - replace (length l - length J)%nat with (length (drop_long prefix l))
      by (assert (length (drop_long prefix l) <= length l)%nat by apply filter_length_le; lia).
    apply forget_app.
Qed.
