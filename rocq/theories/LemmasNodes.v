(** The node records of a written database represent the tree. *)
From Coq Require Import NArith ZArith List Bool Arith Lia ZifyBool ZifyNat ZifyN.
From Verif Require Import Base ModelAddress ModelCountryCode ModelNetwork ModelTree ModelStringPool ModelObjects
  ModelFile ModelWriter SpecNetwork SpecTree.
Import ListNotations.
Open Scope N_scope.

(** The node at index [i] is the root of a copy of [t]. *)
Fixpoint rep (nodes : list node_rec) (nets : list network) (t : tree) (i : nat) : Prop :=
  match t with
  | Nil => False
  | Node _ net z o =>
      exists iz io x, nth_error nodes i = Some (iz, io, x) /\
        match z with Nil => iz = 0 | _ => 0 < iz /\ rep nodes nets z (N.to_nat iz) end /\
        match o with Nil => io = 0 | _ => 0 < io /\ rep nodes nets o (N.to_nat io) end /\
        match net with
        | None => x = NO_NETWORK
        | Some n => exists k, x = N.of_nat k /\ nth_error nets k = Some n
        end
  end.

Definition kids (r : node_rec) : list N :=
  (if fst (fst r) =? 0 then [] else [fst (fst r)]) ++ (if snd (fst r) =? 0 then [] else [snd (fst r)]).

Definition grown (q : list tree) (z : tree) : list tree := match z with Nil => q | _ => q ++ [z] end.

Lemma write_nodes_S d net z o q index ni fuel :
  write_nodes (Node d net z o :: q) index ni (S fuel) =
    (let iz := match z with Nil => 0 | _ => index + 1 end in
     let index1 := match z with Nil => index | _ => index + 1 end in
     let io := match o with Nil => 0 | _ => index1 + 1 end in
     let index2 := match o with Nil => index1 | _ => index1 + 1 end in
     do (nodes, nets) <- write_nodes (grown (grown q z) o) index2 (match net with None => ni | Some _ => ni + 1 end) fuel;
     Ok ((iz, io, match net with None => NO_NETWORK | Some _ => ni end) :: nodes,
         match net with None => nets | Some x => x :: nets end)).
Proof. destruct net, z, o; reflexivity. Qed.

Lemma write_nodes_rep fuel : forall queue index ni nodes nets pre prenets,
  write_nodes queue index ni fuel = Ok (nodes, nets) ->
  (queue <> [] -> index + 1 = N.of_nat (length pre + length queue)) -> ni = N.of_nat (length prenets) ->
  forall j t, nth_error queue j = Some t -> rep (pre ++ nodes) (prenets ++ nets) t (length pre + j).
Proof.
  induction fuel as [|fuel IH]; intros queue index ni nodes nets pre prenets E Hi Hn.
  - destruct queue as [|[|d net z o] q]; cbn [write_nodes] in E; try discriminate. intros [|j] t; discriminate.
  - destruct queue as [|[|d net z o] q]; [intros [|j] t; discriminate|discriminate|].
    rewrite write_nodes_S in E. cbv zeta in E.
    specialize (Hi ltac:(discriminate)). cbn [length] in Hi.
    set (iz := match z with Nil => 0 | _ => index + 1 end) in E.
    set (index1 := match z with Nil => index | _ => index + 1 end) in E.
    set (io := match o with Nil => 0 | _ => index1 + 1 end) in E.
    set (index2 := match o with Nil => index1 | _ => index1 + 1 end) in E.
    set (x := match net with None => NO_NETWORK | Some _ => ni end) in E.
    destruct (write_nodes (grown (grown q z) o) index2 _ fuel) as [[nodes' nets']| | |] eqn:W; try discriminate.
    cbn [bind] in E. injection E as <- <-.
    assert (L2 : index2 + 1 = N.of_nat (length (pre ++ [(iz, io, x)]) + length (grown (grown q z) o))).
    { rewrite app_length. cbn [length]. unfold index2, index1, grown. destruct z, o; rewrite ?app_length; cbn [length]; lia. }
    assert (Hn' : (match net with None => ni | Some _ => ni + 1 end) =
              N.of_nat (length (match net with None => prenets | Some n => prenets ++ [n] end))).
    { destruct net; auto. rewrite app_length. cbn [length]. lia. }
    specialize (IH _ _ _ _ _ (pre ++ [(iz, io, x)]) (match net with None => prenets | Some n => prenets ++ [n] end) W (fun _ => L2) Hn').
    assert (N2 : (match net with None => prenets | Some n => prenets ++ [n] end) ++ nets' =
                 prenets ++ match net with None => nets' | Some n => n :: nets' end).
    { destruct net; auto. now rewrite <- app_assoc. }
    rewrite N2 in IH. rewrite <- app_assoc in IH. cbn [app] in IH.
    set (nodes := pre ++ (iz, io, x) :: nodes') in *. set (nets := prenets ++ _) in *.
    rewrite app_length in IH. cbn [length] in IH.
    intros [|j] t Ej; cbn [nth_error] in Ej.
    + injection Ej as <-. cbn [rep]. rewrite Nat.add_0_r. exists iz, io, x. split.
      { unfold nodes. rewrite nth_error_app2, Nat.sub_diag by lia. reflexivity. }
      split; [|split].
      * unfold iz. destruct z as [|dz nz zz oz] eqn:Ez; auto. split; [lia|]. rewrite <- Ez.
        replace (N.to_nat (index + 1)) with (length pre + 1 + length q)%nat by lia. apply IH.
        rewrite Ez. unfold grown. destruct o; rewrite <- ?app_assoc, nth_error_app2, Nat.sub_diag by lia; reflexivity.
      * unfold io. destruct o as [|dz nz zz oz] eqn:Eo; auto. split; [lia|]. rewrite <- Eo.
        replace (N.to_nat (index1 + 1)) with (length pre + 1 + length (grown q z))%nat.
        2:{ unfold index1, grown. destruct z; rewrite ?app_length; cbn [length]; lia. }
        apply IH. rewrite Eo. unfold grown at 1. rewrite nth_error_app2, Nat.sub_diag by lia. reflexivity.
      * unfold x. destruct net as [n|]; auto. exists (length prenets). split; auto.
        unfold nets. rewrite nth_error_app2, Nat.sub_diag by lia. reflexivity.
    + replace (length pre + S j)%nat with (length pre + 1 + j)%nat by lia. apply IH.
      assert (j < length q)%nat by (apply nth_error_Some; congruence).
      assert (H1 : nth_error (grown q z) j = Some t) by (unfold grown; destruct z; auto; now rewrite nth_error_app1).
      assert (j < length (grown q z))%nat by (apply nth_error_Some; congruence).
      unfold grown at 1. destruct o; auto; now rewrite nth_error_app1.
Qed.

(** The indexes of children are given out in order. *)
Lemma write_nodes_kids fuel : forall queue index ni nodes nets,
  write_nodes queue index ni fuel = Ok (nodes, nets) ->
  (length queue <= length nodes)%nat /\
  flat_map kids nodes = map N.of_nat (seq (S (N.to_nat index)) (length nodes - length queue)).
Proof.
  induction fuel as [|fuel IH]; intros queue index ni nodes nets E.
  - destruct queue as [|[|d net z o] q]; cbn [write_nodes] in E; try discriminate. injection E as <- <-. cbn. auto.
  - destruct queue as [|[|d net z o] q]; [injection E as <- <-; cbn; auto|discriminate|].
    rewrite write_nodes_S in E. cbv zeta in E.
    destruct (write_nodes (grown (grown q z) o) _ _ fuel) as [[nodes' nets']| | |] eqn:W; try discriminate.
    cbn [bind] in E. injection E as <- <-. apply IH in W as [W1 W2]. cbn [length flat_map].
    rewrite W2. unfold kids at 1. cbn [fst snd].
    destruct z as [|dz nz zz oz], o as [|do_ no zo oo]; cbn [grown] in *; rewrite ?app_length in *; cbn [length] in *; (split; [lia|]).
    + reflexivity.
    + rewrite N.eqb_refl. replace (index + 1 =? 0) with false by lia. cbn [app].
      replace (S (length nodes') - S (length q))%nat with (S (length nodes' - (length q + 1))) by lia.
      cbn [seq map]. f_equal; [lia|]. f_equal. f_equal. lia.
    + rewrite N.eqb_refl. replace (index + 1 =? 0) with false by lia. cbn [app].
      replace (S (length nodes') - S (length q))%nat with (S (length nodes' - (length q + 1))) by lia.
      cbn [seq map]. f_equal; [lia|]. f_equal. f_equal. lia.
    + replace (index + 1 =? 0) with false by lia. replace (index + 1 + 1 =? 0) with false by lia. cbn [app].
      replace (S (length nodes') - S (length q))%nat with (S (S (length nodes' - (length q + 1 + 1)))) by lia.
      cbn [seq map]. f_equal; [lia|]. f_equal; [lia|]. f_equal. f_equal. lia.
Qed.

(** The numbering always works. *)
Definition total_nodes (q : list tree) : nat := fold_right (fun t n => (all_nodes t + n)%nat) 0%nat q.
Lemma total_app q r : total_nodes (q ++ r) = (total_nodes q + total_nodes r)%nat.
Proof. induction q as [|t q IH]; cbn [app total_nodes fold_right]; auto. fold (total_nodes q). fold (total_nodes (q ++ r)). lia. Qed.
Lemma total_grown q z : total_nodes (grown q z) = (total_nodes q + all_nodes z)%nat.
Proof. unfold grown. destruct z; rewrite ?total_app; cbn [total_nodes fold_right all_nodes]; lia. Qed.

Lemma write_nodes_total fuel : forall queue index ni, (total_nodes queue <= fuel)%nat -> Forall (fun t => t <> Nil) queue ->
  exists nodes nets, write_nodes queue index ni fuel = Ok (nodes, nets) /\ length nodes = total_nodes queue.
Proof.
  induction fuel as [|fuel IH]; intros queue index ni L F.
  - destruct queue as [|[|d net z o] q]; cbn [total_nodes fold_right all_nodes] in *; [cbn; eauto| |lia].
    inversion F; subst. congruence.
  - destruct queue as [|[|d net z o] q]; [cbn; eauto|inversion F; subst; congruence|].
    rewrite write_nodes_S. cbv zeta. inversion F; subst. cbn [total_nodes fold_right all_nodes] in *. fold (total_nodes q) in *.
    edestruct (IH (grown (grown q z) o)) as (nodes & nets & E & Ln).
    + rewrite !total_grown. lia.
    + unfold grown. destruct z, o; rewrite ?Forall_app; repeat split; auto; repeat constructor; discriminate.
    + rewrite E. cbn [bind]. eexists. eexists. split; [reflexivity|]. cbn [length]. rewrite Ln, !total_grown. lia.
Qed.

(** The networks are those of the tree. *)
Lemma rep_net nodes nets t : forall i n, rep nodes nets t i -> forall d z o, t = Node d (Some n) z o -> In n nets.
Proof.
  intros i n R d z o ->. destruct R as (iz & io & x & _ & _ & _ & k & _ & E). eapply nth_error_In; eauto.
Qed.

(** The fields: node indexes count nodes, network indexes count networks. *)
Lemma write_nodes_fields_at fuel : forall queue index ni nodes nets,
  write_nodes queue index ni fuel = Ok (nodes, nets) ->
  Forall (fun r => fst (fst r) <= index + N.of_nat (length nodes - length queue) /\
                   snd (fst r) <= index + N.of_nat (length nodes - length queue) /\
                   (snd r = NO_NETWORK \/ snd r < ni + N.of_nat (length nets))) nodes.
Proof.
  induction fuel as [|fuel IH]; intros queue index ni nodes nets E.
  - destruct queue as [|[|d net z o] q]; cbn [write_nodes] in E; try discriminate. injection E as <- <-. constructor.
  - destruct queue as [|[|d net z o] q]; [injection E as <- <-; constructor|discriminate|].
    rewrite write_nodes_S in E. cbv zeta in E.
    destruct (write_nodes (grown (grown q z) o) _ _ fuel) as [[nodes' nets']| | |] eqn:W; try discriminate.
    cbn [bind] in E. injection E as <- <-. pose proof (write_nodes_kids _ _ _ _ _ _ W) as [W1 _]. apply IH in W.
    assert (X : forall A, (A -> N.of_nat (length nets') + (match net with None => ni | Some _ => ni + 1 end) <=
                   ni + N.of_nat (length (match net with None => nets' | Some x => x :: nets' end)))).
    { intros A _. destruct net; cbn [length]; lia. }
    specialize (X True I).
    constructor.
    + cbn [fst snd length]. unfold grown in W1. destruct z, o; rewrite ?app_length in W1; cbn [length] in W1;
      (split; [lia|]; split; [lia|]); destruct net; cbn [length] in *; auto; right; lia.
    + eapply Forall_impl; [|exact W]. intros r (H1 & H2 & H3). cbn [length]. unfold grown in H1, H2, W1.
      destruct z, o; rewrite ?app_length in *; cbn [length] in *; (split; [lia|]; split; [lia|]);
      destruct H3 as [H3|H3]; auto; right; lia.
Qed.

Lemma write_nodes_fields t fuel nodes nets : forall index ni,
  write_nodes [t] index ni fuel = Ok (nodes, nets) -> index = 0 -> ni = 0 ->
  Forall (fun r => fst (fst r) < N.of_nat (length nodes) /\ snd (fst r) < N.of_nat (length nodes) /\
                   (snd r = NO_NETWORK \/ snd r < N.of_nat (length nets))) nodes.
Proof.
  intros index ni E -> ->. pose proof (write_nodes_kids _ _ _ _ _ _ E) as [W1 _]. cbn [length] in W1.
  eapply Forall_impl; [|exact (write_nodes_fields_at _ _ _ _ _ _ E)]. intros r (H1 & H2 & H3). cbn [length] in *.
  split; [lia|]. split; [lia|]. destruct H3; auto.
Qed.

(** The networks written are those of the trees in the queue. *)
Lemma write_nodes_nets fuel : forall queue index ni nodes nets,
  write_nodes queue index ni fuel = Ok (nodes, nets) -> forall n, In n nets -> In n (flat_map stored queue).
Proof.
  induction fuel as [|fuel IH]; intros queue index ni nodes nets E n H.
  - destruct queue as [|[|d net z o] q]; cbn [write_nodes] in E; try discriminate. injection E as <- <-. destruct H.
  - destruct queue as [|[|d net z o] q]; [injection E as <- <-; destruct H|discriminate|].
    rewrite write_nodes_S in E. cbv zeta in E.
    destruct (write_nodes (grown (grown q z) o) _ _ fuel) as [[nodes' nets']| | |] eqn:W; try discriminate.
    cbn [bind] in E. injection E as <- <-.
    assert (X : In n nets' -> In n (stored z ++ stored o ++ flat_map stored q)).
    { intros I. pose proof (IH _ _ _ _ _ W n I) as J. unfold grown in J. rewrite !in_app_iff.
      destruct z, o; rewrite ?flat_map_app, ?in_app_iff in J; cbn [flat_map] in J; rewrite ?app_nil_r in J; tauto. }
    cbn [flat_map stored]. rewrite !in_app_iff. rewrite !in_app_iff in X.
    destruct net as [y|]; [destruct H as [->|H]|]; [left; left; now left| |]; specialize (X H); tauto.
Qed.
