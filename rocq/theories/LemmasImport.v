(** Lines, blocks and ranges of the importer *)
From Coq Require Import String.
From Coq Require Import NArith ZArith List Bool Lia ZifyBool ZifyNat ZifyN Sorted.
From Verif Require Import Base ModelCountryCode ModelStringPool SpecText LemmasStringPool ModelImport SpecImport LemmasImportRange.
Import ListNotations.
Open Scope N_scope.

(** ** Text *)
Lemma partition_plain : forall sep x y, plain sep x -> partition sep (x ++ sep :: y) = (x, Some y).
Proof.
  intros sep x y. induction x as [|c x IH]; intro P; cbn [app partition].
  - rewrite N.eqb_refl. reflexivity.
  - destruct (N.eqb_spec c sep) as [E|E]; [exfalso; apply P; left; exact E|].
    rewrite IH; [reflexivity|]. intro H. apply P. right. exact H.
Qed.
Lemma partition_none : forall sep x, plain sep x -> partition sep x = (x, None).
Proof.
  intros sep x. induction x as [|c x IH]; intro P; [reflexivity|]. cbn [partition].
  destruct (N.eqb_spec c sep) as [E|E]; [exfalso; apply P; left; exact E|].
  rewrite IH; [reflexivity|]. intro H. apply P. right. exact H.
Qed.
Lemma split_plain : forall sep x, plain sep x -> split sep x = [x].
Proof.
  intros sep x. induction x as [|c x IH]; intro P; [reflexivity|]. cbn [split].
  destruct (N.eqb_spec c sep) as [E|E]; [exfalso; apply P; left; exact E|].
  rewrite IH; [reflexivity|]. intro H. apply P. right. exact H.
Qed.
Lemma split_cons : forall sep x y, plain sep x -> split sep (x ++ sep :: y) = x :: split sep y.
Proof.
  intros sep x y. induction x as [|c x IH]; intro P; cbn [app split].
  - rewrite N.eqb_refl. reflexivity.
  - destruct (N.eqb_spec c sep) as [E|E]; [exfalso; apply P; left; exact E|].
    rewrite IH; [reflexivity|]. intro H. apply P. right. exact H.
Qed.
Lemma split_joined : forall sep l, l <> [] -> Forall (plain sep) l -> split sep (joined sep l) = l.
Proof.
  intros sep l. induction l as [|x l IH]; intros N F; [contradiction|].
  apply Forall_cons_iff in F. destruct F as [P F]. destruct l as [|y l].
  - apply split_plain. exact P.
  - change (joined sep (x :: y :: l)) with (x ++ sep :: joined sep (y :: l)).
    rewrite split_cons by exact P. rewrite IH; [reflexivity|discriminate|exact F].
Qed.

(** ** Networks *)
Lemma network_wf : forall bits a p n, bits = 32 \/ bits = 128 -> a < 2 ^ bits -> ip_network bits a p = Some n ->
  net_wf n /\ p_bits n = bits /\ holds n a /\ Z.of_N (p_len n) = p.
Proof.
  intros bits a p n B A H. unfold ip_network in H.
  destruct ((p <? 0) || (Z.of_N bits <? p))%Z eqn:E; [discriminate|].
  assert (n = mkP bits (a - a mod 2 ^ (bits - Z.to_N p)) (Z.to_N p)) by congruence. clear H. subst n.
  unfold net_wf, holds, size_of. cbn [p_bits p_len p_base].
  pose proof (pow_pos (bits - Z.to_N p)) as P. set (s := 2 ^ (bits - Z.to_N p)) in *.
  assert (S0 : s <> 0) by lia. pose proof (N.div_mod a s S0) as D. pose proof (N.mod_lt a s S0) as M.
  repeat split; try lia; try exact B.
  assert (X : a - a mod s = a / s * s) by (rewrite D at 1; rewrite N.add_sub; apply N.mul_comm).
  rewrite X. apply N.mod_mul. exact S0.
Qed.
Lemma network_aligned : forall bits a p, p <= bits -> a mod 2 ^ (bits - p) = 0 ->
  ip_network bits a (Z.of_N p) = Some (mkP bits a p).
Proof.
  intros bits a p L A. unfold ip_network.
  replace ((Z.of_N p <? 0) || (Z.of_N bits <? Z.of_N p))%Z with false by lia.
  rewrite N2Z.id, A, N.sub_0_r. reflexivity.
Qed.

Section Line.
  Variable py_int : cstr -> option Z.
  Variable py_log2 : Z -> option Z.
  Variable py_addr : cstr -> option (N * N).
  Variables is_global is_unspecified : pnet -> bool.
  Variable valid : list cstr.
  Let line_of (reg cc type address number date status : cstr) (org : list cstr) : cstr :=
    joined BAR ([reg; cc; type; address; number; date; status] ++ org).

  Lemma line_fields : forall reg cc type address number date status org,
    Forall (plain BAR) ([reg; cc; type; address; number; date; status] ++ org) ->
    line_of reg cc type address number date status org =
      reg ++ BAR :: cc ++ BAR :: type ++ BAR :: joined BAR ([address; number; date; status] ++ org).
  Proof. intros. unfold line_of. reflexivity. Qed.

  Lemma starts_joined : forall c x y, c <> BAR -> starts_with c (x ++ BAR :: y) = starts_with c x.
  Proof.
    intros c x y N. destruct x as [|d x]; [|reflexivity]. cbn [app starts_with].
    destruct (N.eqb_spec BAR c) as [E|E]; [congruence|reflexivity].
  Qed.

  (** what becomes of a line with seven or eight fields *)
  Lemma line_result : forall reg cc type address number date status org,
    Forall (plain BAR) ([reg; cc; type; address; number; date; status] ++ org) -> (length org <= 1)%nat ->
    parse_line py_int py_log2 py_addr is_global is_unspecified valid (line_of reg cc type address number date status org) =
    if starts_with 50 reg || starts_with HASH reg then Skipped
    else if negb (cstr_eqb type (txt "ipv6") || cstr_eqb type (txt "ipv4")) then Skipped
    else if (length cc =? 0)%nat || cstr_eqb cc (txt "*") then Skipped
    else if negb (length valid =? 0)%nat && negb (existsb (cstr_eqb cc) valid) then Skipped
    else if negb (cstr_eqb status (txt "assigned") || cstr_eqb status (txt "allocated")) then Skipped
    else match py_int number with
         | None => Skipped
         | Some k =>
             match (if cstr_eqb type (txt "ipv4") then match py_log2 k with Some l => Some (32 - l)%Z | None => None end else Some k) with
             | None => Raised
             | Some p =>
                 match py_addr address with
                 | None => Skipped
                 | Some (bits, a) =>
                     match ip_network bits a p with
                     | None => Skipped
                     | Some n => if check_parsed_network is_global is_unspecified n then Row (n, cc) else Skipped
                     end
                 end
             end
         end.
  Proof.
    intros reg cc type address number date status org F O. rewrite line_fields by exact F.
    cbn [app] in F. repeat rewrite Forall_cons_iff in F. destruct F as (F1 & F2 & F3 & F4 & F5 & F6 & F7 & F8).
    unfold parse_line. rewrite !starts_joined by discriminate.
    destruct (starts_with 50 reg || starts_with HASH reg); [reflexivity|].
    rewrite !partition_plain by assumption.
    destruct (negb (cstr_eqb type (txt "ipv6") || cstr_eqb type (txt "ipv4"))); [reflexivity|].
    destruct ((length cc =? 0)%nat || cstr_eqb cc (txt "*")); [reflexivity|].
    destruct (negb (length valid =? 0)%nat && negb (existsb (cstr_eqb cc) valid)); [reflexivity|].
    rewrite split_joined; [|destruct org; discriminate|repeat (apply Forall_cons_iff; split; [assumption|]); exact F8].
    destruct org as [|o [|]]; [reflexivity|reflexivity|cbn in O; lia].
  Qed.
End Line.

(** ** Ranges *)
Lemma range_exact : forall bits first last, bits = 32 \/ bits = 128 -> first <= last -> last < 2 ^ bits ->
  exists l, summarize_address_range (bits, first) (bits, last) = Row l /\ tiles bits last first l.
Proof.
  intros bits first last B F L. unfold summarize_address_range. cbn [fst snd]. rewrite N.eqb_refl. cbn [negb].
  replace (last <? first) with false by lia.
  destruct (range_early bits last B L 258 first F) as (l & A & T).
  { pose proof (zero_bits_le bits first). destruct B as [-> | ->]; lia. }
  rewrite A. exists l. split; [reflexivity|exact T].
Qed.
(** the range of a network is the network *)
Lemma range_network : forall n, net_wf n ->
  summarize_address_range (p_bits n, p_base n) (p_bits n, p_base n + 2 ^ (p_bits n - p_len n) - 1) = Row [n].
Proof.
  intros [bits a len] (B & L & M & A). unfold size_of in M. cbn [p_bits p_base p_len] in *.
  pose proof (pow_pos (bits - len)) as P.
  assert (U : a + 2 ^ (bits - len) <= 2 ^ bits).
  { apply N.mod_divides in M; [|lia]. destruct M as [x ->].
    replace bits with ((bits - len) + len) in A at 2 by lia. replace bits with ((bits - len) + len) at 3 by lia.
    rewrite N.pow_add_r in *. apply N.mul_lt_mono_pos_l in A; [|exact P].
    replace (2 ^ (bits - len) * x + 2 ^ (bits - len)) with (2 ^ (bits - len) * (x + 1)) by lia. apply N.mul_le_mono_l. lia. }
  set (last := a + 2 ^ (bits - len) - 1).
  destruct (range_exact bits a last B) as (l & E & T); try (unfold last; lia).
  rewrite E. f_equal.
  assert (S1 : step bits last a = bits - len).
  { apply N.le_antisymm.
    - destruct (step_facts bits last B ltac:(unfold last; lia) a) as (_ & _ & H); [unfold last; lia|].
      apply (N.pow_le_mono_r_iff 2); [lia|]. unfold last in *. lia.
    - apply step_max; try exact M; unfold last; lia. }
  inversion T as [X|first l' F T' X Y]; [unfold last in *; lia|]. rewrite S1 in T'.
  replace (bits - step bits last a) with len by lia. f_equal.
  inversion T' as [X'|first' l'' F' T'' X' Y']; [reflexivity|]. unfold last in *. lia.
Qed.

(** ** Blocks *)
Section Blocks.
  Variable space : N -> bool.
  Variable decode : list N -> cstr.
  Notation kind_of := (kind_of space decode).
  Notation content := (content space decode).
  Lemma loop_step : forall l lines block,
    blocks_loop space decode (l :: lines) block =
    match kind_of l with
    | Ignored => blocks_loop space decode lines block
    | Content s => blocks_loop space decode lines (block ++ [s])
    | Blank => match block with [] => blocks_loop space decode lines [] | _ => block :: blocks_loop space decode lines [] end
    end.
  Proof.
    intros l lines block. cbn [blocks_loop]. unfold SpecImport.kind_of.
    destruct (starts_with HASH l || starts_with PERCENT l); [reflexivity|].
    destruct (partition HASH (decode l)) as [x c]. destruct (rstrip space x); [|destruct c as [[|]|]; reflexivity].
    destruct c as [[|]|]; reflexivity.
  Qed.
  Lemma loop_concat : forall lines block,
    concat (blocks_loop space decode lines block) = block ++ content lines.
  Proof.
    induction lines as [|l lines IH]; intro block.
    { cbn. destruct block; cbn; rewrite ?app_nil_r; reflexivity. }
    rewrite loop_step. unfold SpecImport.content. cbn [flat_map]. fold (content lines). destruct (kind_of l).
    - apply IH.
    - destruct block; [apply IH|]. cbn [concat]. rewrite IH. reflexivity.
    - rewrite IH, <- app_assoc. reflexivity.
  Qed.
  Lemma loop_nonempty : forall lines block, Forall (fun b => b <> []) (blocks_loop space decode lines block).
  Proof.
    induction lines as [|l lines IH]; intro block.
    { cbn. destruct block; constructor; [discriminate|constructor]. }
    rewrite loop_step. destruct (kind_of l); try apply IH.
    destruct block; [apply IH|]. constructor; [discriminate|apply IH].
  Qed.
  Lemma loop_blank : forall a b block l, kind_of l = Blank ->
    blocks_loop space decode (a ++ l :: b) block = blocks_loop space decode a block ++ blocks_loop space decode b [].
  Proof.
    induction a as [|x a IH]; intros b block l K.
    { cbn [app]. rewrite loop_step, K. destruct block; reflexivity. }
    cbn [app]. rewrite !loop_step. destruct (kind_of x); try (apply IH; exact K).
    destruct block; [apply IH; exact K|]. cbn [app]. f_equal. apply IH. exact K.
  Qed.
  Lemma loop_run : forall lines block, (forall l, In l lines -> kind_of l <> Blank) ->
    blocks_loop space decode lines block = match block ++ content lines with [] => [] | x => [x] end.
  Proof.
    induction lines as [|l lines IH]; intros block H.
    { cbn. rewrite app_nil_r. destruct block; reflexivity. }
    rewrite loop_step. unfold SpecImport.content. cbn [flat_map]. fold (content lines).
    pose proof (H l (or_introl eq_refl)) as K. destruct (kind_of l); [|contradiction|].
    - apply IH. intros; apply H; right; assumption.
    - rewrite IH by (intros; apply H; right; assumption). rewrite <- app_assoc. reflexivity.
  Qed.
  Lemma loop_ignored : forall a b block l, kind_of l = Ignored ->
    blocks_loop space decode (a ++ l :: b) block = blocks_loop space decode (a ++ b) block.
  Proof.
    induction a as [|x a IH]; intros b block l K.
    { cbn [app]. rewrite loop_step, K. reflexivity. }
    cbn [app]. rewrite !loop_step. destruct (kind_of x); try (apply IH; exact K).
    destruct block; [apply IH; exact K|]. f_equal. apply IH. exact K.
  Qed.
End Blocks.
