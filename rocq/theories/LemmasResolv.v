(** The DNS reply parser: bounds, termination, independence of the octets behind
    the reply. *)
From Coq Require Import NArith ZArith List Bool Arith Lia ZifyBool ZifyNat ZifyN.
From Verif Require Import Base LemmasBase ModelCountryCode ModelText ModelResolv.
Import ListNotations.
Open Scope N_scope.

Lemma get_ok buf i : (i < length buf)%nat -> exists v, get buf i = Ok v /\ nth_error buf i = Some v.
Proof.
  intros H. unfold get. destruct (nth_error buf i) eqn:E; [eauto|]. apply nth_error_None in E. lia.
Qed.

Lemma get16_ok buf i : (i + 2 <= length buf)%nat -> exists v, get16 buf i = Ok v.
Proof.
  intros H. unfold get16. destruct (get_ok buf i) as (a & -> & _); [lia|].
  destruct (get_ok buf (i + 1)) as (b & -> & _); [lia|]. cbn. eauto.
Qed.

Lemma get32_ok buf i : (i + 4 <= length buf)%nat -> exists v, get32 buf i = Ok v.
Proof.
  intros H. unfold get32. destruct (get16_ok buf i) as (a & ->); [lia|].
  destruct (get16_ok buf (i + 2)) as (b & ->); [lia|]. cbn. eauto.
Qed.

Lemma take_ok buf n : forall i, (i + n <= length buf)%nat -> exists l, take buf i n = Ok l.
Proof.
  induction n as [|n IH]; intros i H; cbn [take]; [eauto|].
  destruct (get_ok buf i) as (a & -> & _); [lia|]. destruct (IH (i + 1)%nat) as (l & ->); [lia|]. cbn. eauto.
Qed.

(** Neither undefined behaviour nor an exhausted loop; [P] holds of the result. *)
Definition safe {A} (x : outcome A) (P : A -> Prop) : Prop :=
  match x with Ok v => P v | Err _ => True | _ => False end.

Lemma unpack_safe buf e start fuel : forall s dst len checked, (e <= length buf)%nat -> (s < e)%nat ->
  match len with Some l => 1 <= l /\ start + l <= e | None => start <= s end%nat ->
  ((255 - dst) + (e - checked) < 2 * fuel)%nat ->
  safe (unpack buf e start s dst len checked fuel) (fun r => 1 <= fst r /\ start + fst r <= e)%nat.
Proof.
  induction fuel as [|fuel IH]; intros s dst len checked E S0 L M; [lia|]. cbn [unpack].
  destruct (get_ok buf s) as (n & -> & _); [lia|]. cbn [bind].
  destruct (n =? 0) eqn:Z0; [cbn; destruct len; cbn; lia|].
  destruct (n <? 64) eqn:N6.
  - destruct ((NS_MAXCDNAME <=? dst + N.to_nat n + 1) || (e <=? s + 1 + N.to_nat n))%nat eqn:C; [exact Logic.I|].
    unfold NS_MAXCDNAME in C. apply orb_false_iff in C as [C1 C2].
    destruct (take_ok buf (N.to_nat n) (s + 1)) as (l & ->); [lia|]. cbn [bind].
    specialize (IH (s + 1 + N.to_nat n)%nat (dst + 1 + N.to_nat n)%nat len (checked + N.to_nat n + 1)%nat).
    destruct (unpack _ _ _ _ _ _ _ _) as [[r ls]|?| |].
    + cbn. apply IH; try lia. destruct len; lia.
    + exact Logic.I.
    + apply IH; try lia. destruct len; lia.
    + apply IH; try lia. destruct len; lia.
  - destruct (n <? 192); [exact Logic.I|]. destruct (e <=? s + 1)%nat eqn:C; [exact Logic.I|].
    destruct (get_ok buf (s + 1)) as (o & -> & _); [lia|]. cbn [bind].
    destruct (e <=? N.to_nat _)%nat eqn:T; [exact Logic.I|]. destruct (e <=? checked + 2)%nat eqn:K; [exact Logic.I|].
    apply IH; try lia. destruct len; lia.
Qed.

(** What the parser needs from dn_expand. *)
Definition expands (expand : list N -> nat -> nat -> outcome nat) : Prop := forall buf e p,
  (e <= length buf)%nat -> safe (expand buf e p) (fun n => 1 <= n /\ p + n <= e)%nat.

Lemma ntop_chars_safe room l : forall out, safe (ntop_chars room out l) (fun _ => True).
Proof.
  induction l as [|c l IH]; intros out; cbn [ntop_chars]; [exact Logic.I|].
  destruct (room <=? _)%nat; [exact Logic.I|]. apply IH.
Qed.

Lemma ntop_labels_safe room ls : forall out, safe (ntop_labels room out ls) (fun _ => True).
Proof.
  induction ls as [|l ls IH]; intros out; cbn [ntop_labels].
  - destruct (room <=? _)%nat; exact Logic.I.
  - destruct (_ && _); [exact Logic.I|]. destruct (room <=? _)%nat; [exact Logic.I|].
    pose proof (ntop_chars_safe room l (if match out with [] => true | _ => false end then out else out ++ [DOT])) as H.
    destruct (ntop_chars _ _ _); cbn [bind]; auto.
Qed.

Lemma dn_expand_expands : expands dn_expand.
Proof.
  intros buf e p E. unfold dn_expand. destruct (e <=? p)%nat eqn:C; [exact Logic.I|].
  pose proof (unpack_safe buf e p (e + 130) p 0 None 0) as U.
  destruct (unpack _ _ _ _ _ _ _ _) as [[n ls]|?| |]; cbn [bind]; try (apply U; lia).
  pose proof (ntop_labels_safe 128 ls []) as H. destruct (ntop_labels _ _ _); cbn [bind]; auto.
  cbn. apply U; lia.
Qed.

Lemma walk_safe expand buf e : expands expand -> (e <= length buf)%nat -> forall fuel p, (e < fuel + p)%nat -> (p <= e)%nat ->
  safe (walk expand fuel buf e p) (fun r => snd r + snd (fst r) <= e)%nat.
Proof.
  intros X E. induction fuel as [|fuel IH]; intros p F P; [lia|]. cbn [walk].
  pose proof (X buf e p E) as H. destruct (expand buf e p) as [n|?| |]; cbn [bind]; auto. cbn in H.
  destruct (e <? p + n + 10)%nat eqn:C; [exact Logic.I|].
  destruct (get16_ok buf (p + n)) as (ty & ->); [lia|]. destruct (get32_ok buf (p + n + 4)) as (tt & ->); [lia|].
  destruct (get16_ok buf (p + n + 8)) as (sz & ->); [lia|]. cbn [bind].
  destruct (e <? p + n + 10 + N.to_nat sz)%nat eqn:D; [exact Logic.I|].
  destruct (ty =? T_CNAME); [apply IH; lia|]. cbn. lia.
Qed.

Lemma find_safe expand buf e : expands expand -> (e <= length buf)%nat ->
  safe (find_txt expand buf e) (fun r => fst r + snd r <= e /\ 1 <= snd r /\ 1 <= fst r)%nat.
Proof.
  intros X E. unfold find_txt. pose proof (X buf e HFIXEDSZ E) as H.
  destruct (expand buf e HFIXEDSZ) as [n|?| |]; cbn [bind]; auto. cbn beta iota delta [safe] in H.
  generalize dependent HFIXEDSZ. intros h H.
  destruct (e <? h + n + 4)%nat eqn:C; [exact Logic.I|]. destruct (get16_ok buf (h + n)) as (ty & ->); [lia|]. cbn [bind].
  destruct (ty =? T_TXT); cbn [negb]; [|exact Logic.I].
  pose proof (walk_safe expand buf e X E (S (length buf)) (h + n + 4)) as W.
  destruct (walk _ _ _ _ _) as [[[ty' sz] p]|?| |]; cbn [bind]; auto; try (apply W; lia).
  cbn beta iota delta [safe fst snd] in W.
  destruct (ty' =? T_TXT); cbn [negb]; [|exact Logic.I]. destruct (sz =? 0)%nat eqn:Z0; [exact Logic.I|].
  destruct (get_ok buf p) as (l & -> & _); [lia|]. cbn [bind].
  destruct ((sz <=? N.to_nat l) || (N.to_nat l =? 0))%nat eqn:D; [exact Logic.I|]. cbn. lia.
Qed.

(** The string: what is between [p] and the octet set to 0. *)
Fixpoint upto_nul (l : list N) : list N :=
  match l with [] => [] | c :: l' => if c =? 0 then [] else c :: upto_nul l' end.

Lemma cstring_nul l r : cstring (l ++ 0 :: r) = Ok (upto_nul l).
Proof. induction l as [|c l IH]; cbn; auto. destruct (c =? 0); auto. now rewrite IH. Qed.

Lemma skipn_upd {A} (l : list A) : forall p n v, (p + n < length l)%nat ->
  skipn p (upd l (p + n) v) = firstn n (skipn p l) ++ v :: skipn (p + n + 1) l.
Proof.
  induction l as [|x l IH]; intros p n v H; cbn in H; [lia|]. destruct p as [|p].
  - cbn [skipn]. cbn [plus]. clear IH. revert x l H. induction n as [|n IHn]; intros x l H; cbn; auto.
    destruct l as [|y l]; [cbn in H; lia|]. f_equal. apply IHn. cbn in *; lia.
  - cbn [skipn plus upd]. rewrite IH by lia. reflexivity.
Qed.

Lemma discover_eq expand r len buf : length buf = PACKETSZ -> (0 <= len <= 512)%Z -> r = 0%Z ->
  discover expand r len buf =
  match find_txt expand buf (Z.to_nat len) with
  | Err c => Ok (c, None)
  | UB => UB
  | Fuel => Fuel
  | Ok (p, n) =>
      if (p + n <? 512)%nat then
        let (t, r) := parse_timestamp (upto_nul (firstn n (skipn p buf))) in Ok (r, Some t)
      else UB
  end.
Proof.
  intros L Z0 ->. unfold discover. replace (Z.of_nat PACKETSZ) with 512%Z by reflexivity.
  replace ((len <? 0)%Z || (512 <? len)%Z) with false by lia.
  cbn [negb Z.eqb]. destruct (find_txt _ _ _) as [[p n]|?| |]; auto.
  unfold put. rewrite L. change (p + n <? PACKETSZ)%nat with (p + n <? 512)%nat.
  destruct (p + n <? 512)%nat eqn:C; auto. cbn [bind].
  assert (p + n < length buf)%nat by (rewrite L; unfold PACKETSZ; lia).
  rewrite skipn_upd by auto. rewrite cstring_nul. reflexivity.
Qed.

Lemma discover_safe expand r len buf : expands expand -> length buf = PACKETSZ -> len <> 512%Z ->
  exists v t, discover expand r len buf = Ok (v, t).
Proof.
  intros X L Z0. destruct (Z.eq_dec r 0) as [->|R].
  - destruct (Z_lt_dec len 0) as [N|N].
    { unfold discover. replace (len <? 0)%Z with true by lia. cbn. eauto. }
    destruct (Z_gt_dec len 512) as [G|G].
    { unfold discover. replace (Z.of_nat PACKETSZ <? len)%Z with true by (unfold PACKETSZ; lia). rewrite orb_true_r. cbn. eauto. }
    rewrite discover_eq by lia.
    pose proof (find_safe expand buf (Z.to_nat len) X) as F. rewrite L in F. unfold PACKETSZ in F.
    specialize (F ltac:(lia)). destruct (find_txt _ _ _) as [[p n]|?| |]; cbn in F; try contradiction; eauto.
    replace (p + n <? 512)%nat with true by lia. destruct (parse_timestamp _). eauto.
  - unfold discover. replace (r =? 0)%Z with false by lia. cbn. eauto.
Qed.

Lemma discover_ub expand r len buf : expands expand -> length buf = PACKETSZ ->
  discover expand r len buf = UB <->
  r = 0%Z /\ len = 512%Z /\ exists p n, find_txt expand buf 512 = Ok (p, n) /\ (p + n = 512)%nat.
Proof.
  intros X L. split.
  - intros U. destruct (Z.eq_dec len 512) as [->|N].
    2:{ destruct (discover_safe expand r len buf X L N) as (v & t & Q). congruence. }
    destruct (Z.eq_dec r 0) as [->|R].
    2:{ exfalso. revert U. unfold discover. replace (r =? 0)%Z with false by lia. cbn [negb]. discriminate. }
    split; auto. split; auto. rewrite discover_eq in U by (auto; lia). change (Z.to_nat 512) with 512%nat in U.
    pose proof (find_safe expand buf 512 X) as F. rewrite L in F. specialize (F (le_n _)).
    destruct (find_txt expand buf 512) as [[p n]|?| |]; cbn in F; try contradiction; try discriminate.
    exists p, n. split; auto. destruct (p + n <? 512)%nat eqn:C; [|lia]. destruct (parse_timestamp _). discriminate.
  - intros (-> & -> & p & n & F & E). rewrite discover_eq by (auto; lia). change (Z.to_nat 512) with 512%nat.
    rewrite F. replace (p + n <? 512)%nat with false by lia. reflexivity.
Qed.

(** ** Only the reply matters *)
Definition agree (e : nat) (b b' : list N) : Prop := forall i, (i < e)%nat -> nth_error b i = nth_error b' i.

Lemma agree_get e b b' i : agree e b b' -> (i < e)%nat -> get b i = get b' i.
Proof. intros A H. unfold get. now rewrite (A i H). Qed.

Lemma agree_get16 e b b' i : agree e b b' -> (i + 2 <= e)%nat -> get16 b i = get16 b' i.
Proof. intros A H. unfold get16. rewrite (agree_get e b b' i), (agree_get e b b' (i + 1)) by (auto; lia). reflexivity. Qed.

Lemma agree_get32 e b b' i : agree e b b' -> (i + 4 <= e)%nat -> get32 b i = get32 b' i.
Proof. intros A H. unfold get32. rewrite (agree_get16 e b b' i), (agree_get16 e b b' (i + 2)) by (auto; lia). reflexivity. Qed.

Lemma agree_take e b b' n : agree e b b' -> forall i, (i + n <= e)%nat -> take b i n = take b' i n.
Proof.
  intros A. induction n as [|n IH]; intros i H; cbn [take]; auto.
  rewrite (agree_get e b b' i), (IH (i + 1)%nat) by (auto; lia). reflexivity.
Qed.

Lemma agree_unpack e b b' start fuel : agree e b b' -> forall s dst len checked, (s < e)%nat ->
  unpack b e start s dst len checked fuel = unpack b' e start s dst len checked fuel.
Proof.
  intros A. induction fuel as [|fuel IH]; intros s dst len checked H; auto. cbn [unpack].
  rewrite (agree_get e b b' s) by auto. destruct (get b' s) as [n|?| |]; cbn [bind]; auto.
  destruct (n =? 0); auto. destruct (n <? 64) eqn:N6.
  - destruct ((NS_MAXCDNAME <=? dst + N.to_nat n + 1) || (e <=? s + 1 + N.to_nat n))%nat eqn:C; auto.
    apply orb_false_iff in C as [_ C]. rewrite (agree_take e b b' _ A) by lia. rewrite IH by lia. reflexivity.
  - destruct (n <? 192); auto. destruct (e <=? s + 1)%nat eqn:C; auto.
    rewrite (agree_get e b b' (s + 1)) by (auto; lia). destruct (get b' (s + 1)); cbn [bind]; auto.
    destruct (e <=? N.to_nat _)%nat eqn:T; auto. destruct (e <=? checked + 2)%nat; auto. apply IH. lia.
Qed.

Definition reads_reply (expand : list N -> nat -> nat -> outcome nat) : Prop := forall e b b' p,
  agree e b b' -> expand b e p = expand b' e p.

Lemma dn_expand_reads : reads_reply dn_expand.
Proof.
  intros e b b' p A. unfold dn_expand. destruct (e <=? p)%nat eqn:C; auto.
  rewrite (agree_unpack e b b' p _ A) by lia. reflexivity.
Qed.

Lemma agree_walk expand e b b' fuel : reads_reply expand -> agree e b b' -> forall p,
  walk expand fuel b e p = walk expand fuel b' e p.
Proof.
  intros X A. induction fuel as [|fuel IH]; intros p; auto. cbn [walk]. rewrite (X e b b' p A).
  destruct (expand b' e p) as [n|?| |]; cbn [bind]; auto. destruct (e <? p + n + 10)%nat eqn:C; auto.
  rewrite (agree_get16 e b b' (p + n)), (agree_get32 e b b' (p + n + 4)), (agree_get16 e b b' (p + n + 8)) by (auto; lia).
  destruct (get16 b' (p + n)); cbn [bind]; auto. destruct (get32 b' (p + n + 4)); cbn [bind]; auto.
  destruct (get16 b' (p + n + 8)) as [sz|?| |]; cbn [bind]; auto.
  destruct (e <? p + n + 10 + N.to_nat sz)%nat; auto. destruct (v =? T_CNAME); auto.
Qed.

Lemma agree_find expand e b b' : expands expand -> reads_reply expand -> agree e b b' -> length b = length b' ->
  (e <= length b)%nat -> find_txt expand b e = find_txt expand b' e.
Proof.
  intros X R A L E. unfold find_txt. rewrite (R e b b' _ A).
  destruct (expand b' e HFIXEDSZ) as [n|?| |] eqn:Q; cbn [bind]; auto.
  destruct (e <? HFIXEDSZ + n + 4)%nat eqn:C; auto.
  rewrite (agree_get16 e b b' (HFIXEDSZ + n)) by (auto; lia). destruct (get16 b' _); cbn [bind]; auto.
  destruct (negb _); auto. rewrite L, (agree_walk expand e b b' _ R A).
  pose proof (walk_safe expand b' e X ltac:(lia) (S (length b')) (HFIXEDSZ + n + 4)) as W.
  destruct (walk _ _ b' e _) as [[[ty sz] p]|?| |]; cbn [bind]; auto. destruct (negb _); auto.
  destruct (sz =? 0)%nat eqn:Z0; auto. cbn beta iota delta [safe fst snd] in W.
  rewrite (agree_get e b b' p) by (auto; lia). reflexivity.
Qed.

Lemma firstn_agree e b b' : agree e b b' <-> firstn e b = firstn e b'.
Proof.
  revert b b'. induction e as [|e IH]; intros b b'; [split; auto; intros _ i H; lia|]. split.
  - intros A. destruct b as [|x b], b' as [|y b']; cbn [firstn]; auto.
    + specialize (A 0%nat ltac:(lia)). discriminate.
    + specialize (A 0%nat ltac:(lia)). discriminate.
    + pose proof (A 0%nat ltac:(lia)) as A0. cbn in A0. assert (x = y) by congruence. subst. f_equal. apply IH.
      intros i H. apply (A (S i)). lia.
  - intros F [|i] H.
    + destruct b, b'; cbn in F |- *; congruence.
    + destruct b as [|x b], b' as [|y b']; cbn in F; try discriminate; auto. cbn.
      apply IH; [congruence|lia].
Qed.

Lemma agree_slice e b b' p n : agree e b b' -> (p + n <= e)%nat -> firstn n (skipn p b) = firstn n (skipn p b').
Proof.
  intros A H. rewrite !firstn_skipn_comm. f_equal. apply firstn_agree. intros i I0. apply A. lia.
Qed.

Lemma discover_reply expand r len b b' : expands expand -> reads_reply expand ->
  length b = PACKETSZ -> length b' = PACKETSZ -> firstn (Z.to_nat len) b = firstn (Z.to_nat len) b' ->
  discover expand r len b = discover expand r len b'.
Proof.
  intros X R L L' F. apply firstn_agree in F. destruct (Z.eq_dec r 0) as [->|N].
  2:{ unfold discover. replace (r =? 0)%Z with false by lia. reflexivity. }
  destruct (Z_lt_dec len 0) as [N|N].
  { unfold discover. replace (len <? 0)%Z with true by lia. reflexivity. }
  destruct (Z_gt_dec len 512) as [G|G].
  { unfold discover. replace (Z.of_nat PACKETSZ <? len)%Z with true by (unfold PACKETSZ; lia).
    rewrite orb_true_r. reflexivity. }
  rewrite !discover_eq by (auto; lia).
  assert (E : (Z.to_nat len <= length b)%nat) by (rewrite L; unfold PACKETSZ; lia).
  rewrite (agree_find expand (Z.to_nat len) b b') by (auto; congruence).
  pose proof (find_safe expand b' (Z.to_nat len) X ltac:(rewrite L', <- L; auto)) as W.
  destruct (find_txt _ b' _) as [[p n]|?| |]; auto. cbn beta iota delta [safe fst snd] in W.
  rewrite (agree_slice (Z.to_nat len) b b') by (auto; lia). reflexivity.
Qed.
