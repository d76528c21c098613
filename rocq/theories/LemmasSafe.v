(** Reading arbitrary files *)
From Coq Require Import NArith ZArith List Bool Arith Lia ZifyBool ZifyNat ZifyN.
From Verif Require Import Base LemmasBase ModelAddress LemmasAddress ModelCountryCode ModelNetwork LemmasNetwork
  ModelStringPool ModelObjects ModelFile ModelDatabase SpecNetwork LemmasSpecNetwork LemmasStringPool LemmasFile.
Import ListNotations.
Open Scope N_scope.

Lemma check_magic_spec f v : check_magic f = Ok v -> (8 <= length f)%nat /\ firstn 7 f = MAGIC /\ v = 1 /\ nth 7 f 0 = 1.
Proof.
  unfold check_magic, version_supported. destruct (N.ltb_spec (flen f) MAGIC_SIZE) as [|L]; try discriminate.
  destruct (cstr_eqb (firstn 7 f) MAGIC) eqn:E; try discriminate. apply cstr_eqb_eq in E.
  destruct (N.eqb_spec (nth 7 f 0) VERSION_1) as [V|V]; try discriminate. cbn [negb].
  intros H. injection H as <-. unfold flen, MAGIC_SIZE, VERSION_1 in *. split; [lia|]. auto.
Qed.

Lemma check_magic_cases f : check_magic f = Err 1 \/ check_magic f = Ok 1.
Proof.
  unfold check_magic, version_supported. destruct (flen f <? MAGIC_SIZE); auto.
  destruct (cstr_eqb (firstn 7 f) MAGIC); auto.
  destruct (N.eqb_spec (nth 7 f 0) VERSION_1) as [V|V]; cbn [negb]; auto. rewrite V. auto.
Qed.

(** ** opening *)
Lemma opened_file f d : db_open f = Ok d ->
  d_file d = f /\ 4200 <= flen f /\ firstn 7 f = MAGIC /\ nth 7 f 0 = 1 /\
  snd (d_sig1 d) <= 2048 /\ snd (d_sig2 d) <= 2048 /\ fst (d_sig1 d) = 72 /\ fst (d_sig2 d) = 2120.
Proof.
  unfold db_open. destruct (check_magic f) as [v| | |] eqn:M; try discriminate. cbn [bind].
  apply check_magic_spec in M as (L & M & -> & V). cbn [N.eqb Pos.eqb VERSION_1]. unfold read_header_v1.
  destruct (negb (check_boundaries f MAGIC_SIZE HEADER_SIZE)); try discriminate.
  unfold rd. destruct (N.leb_spec (MAGIC_SIZE + HEADER_SIZE) (N.of_nat (length f))) as [B|B]; try discriminate. cbn [bind].
  set (h := firstn _ _). unfold read_signature.
  destruct (N.ltb_spec SIG_MAX (field h 60 2)) as [|S1]; try discriminate. cbn [bind].
  destruct (N.ltb_spec SIG_MAX (field h 62 2)) as [|S2]; try discriminate. cbn [bind].
  destruct (negb (check_boundaries f (field h 52 4) (field h 56 4))); try discriminate.
  intros H. apply (f_equal (fun r => match r with Ok y => y | _ => d end)) in H. cbv beta iota in H. rewrite <- H.
  cbn [d_file d_sig1 d_sig2 fst snd]. unfold flen.
  split; [reflexivity|]. split; [exact B|]. split; [exact M|]. split; [exact V|].
  split; [exact S1|]. split; [exact S2|]. split; reflexivity.
Qed.

Lemma open_rejects f : flen f < 8 \/ firstn 7 f <> MAGIC \/ nth 7 f 0 <> 1 -> db_open f = Err 1.
Proof.
  intros H. unfold db_open. destruct (check_magic_cases f) as [->| E]; [reflexivity|]. exfalso.
  apply check_magic_spec in E as (L & M & _ & V). destruct H as [H|[H|H]]; try congruence. unfold flen in H. lia.
Qed.
Lemma open_short f : 4192 <= flen f < 4200 -> db_open f = Err 1.
Proof.
  intros H. unfold db_open. destruct (check_magic_cases f) as [->| ->]; [reflexivity|]. cbn [bind N.eqb Pos.eqb VERSION_1].
  unfold read_header_v1. destruct (check_boundaries f MAGIC_SIZE HEADER_SIZE) eqn:E; [|reflexivity]. exfalso.
  apply check_small in E; unfold HEADER_SIZE, MAGIC_SIZE in *; lia.
Qed.
Lemma open_too_short f : 8 <= flen f < 4192 -> firstn 7 f = MAGIC -> nth 7 f 0 = 1 -> db_open f = UB.
Proof.
  intros H M V. unfold db_open. destruct (check_magic_cases f) as [E| ->].
  - exfalso. unfold check_magic in E. rewrite M, V in E. replace (flen f <? MAGIC_SIZE) with false in E by (unfold MAGIC_SIZE; lia). discriminate.
  - cbn [bind N.eqb Pos.eqb VERSION_1]. unfold read_header_v1, check_boundaries.
    replace (MAGIC_SIZE <=? (flen f + (2 ^ 64 - HEADER_SIZE)) mod 2 ^ 64) with true.
    2:{ symmetry. rewrite N.leb_le. rewrite N.mod_small by (unfold HEADER_SIZE; lia). unfold MAGIC_SIZE, HEADER_SIZE. lia. }
    cbn [negb]. unfold rd. replace (MAGIC_SIZE + HEADER_SIZE <=? N.of_nat (length f)) with false; [reflexivity|].
    unfold flen, MAGIC_SIZE, HEADER_SIZE in *. lia.
Qed.

(** ** records *)
Lemma in_firstn {A} (x : A) n l : In x (firstn n l) -> In x l.
Proof. intros H. rewrite <- (firstn_skipn n l). apply in_or_app. auto. Qed.
Lemma in_skipn {A} (x : A) n l : In x (skipn n l) -> In x l.
Proof. intros H. rewrite <- (firstn_skipn n l). apply in_or_app. auto. Qed.

Lemma rd_octets f off len r : rd f off len = Ok r -> octets f -> octets r.
Proof.
  unfold rd. destruct (_ <=? _); [|discriminate]. intros E O.
  replace r with (firstn (N.to_nat len) (skipn (N.to_nat off) f)).
  - unfold octets in *. rewrite Forall_forall in *. intros y Hy. apply O. apply in_firstn in Hy. now apply in_skipn in Hy.
  - generalize dependent (firstn (N.to_nat len) (skipn (N.to_nat off) f)). intros l E. now injection E.
Qed.

Lemma field_bound r off len : octets r -> field r off len < 256 ^ N.of_nat len.
Proof.
  intros O. unfold field. pose proof (be_bound (firstn len (skipn off r))) as B.
  assert (octets (firstn len (skipn off r))) as Q.
  { apply Forall_forall. intros x Hx. unfold octets in O. rewrite Forall_forall in O. apply O.
    apply (in_firstn _ _ _) in Hx. now apply in_skipn in Hx. }
  specialize (B Q). eapply N.lt_le_trans; [exact B|]. apply N.pow_le_mono_r; [lia|]. pose proof (firstn_le_length len (skipn off r)). lia.
Qed.

Lemma from_database_wf a p r n : wf a -> octets r -> network_from_database a p r = (Some n, 0%Z) -> net_wf n.
Proof.
  intros W O. unfold network_from_database.
  match goal with |- context [network_new a ?q] => pose proof (network_new_spec a q W) as NN; set (pr := q) in * end.
  destruct (pr <=? low_bits (val a)); [|rewrite NN; discriminate].
  destruct NN as (m & -> & Wm & _ & _ & _ & C & A & F).
  destruct (set_country_code m (Some (cc_str (nth 0 r 0, nth 1 r 0)))) as [m'|code| |] eqn:E; try discriminate.
  2:{ intros H. injection H as _ ->. exfalso. unfold set_country_code in E. destruct (cc_str _); [discriminate|].
      destruct (negb _); discriminate. }
  intros H. injection H as <-.
  assert (Ex : exists c, m' = with_cc m c /\ cc_ok c).
  { unfold set_country_code in E. destruct (cc_str (nth 0 r 0, nth 1 r 0)) as [|x s] eqn:S0.
    - injection E as <-. rewrite C. exists (0, 0). split; auto. left. cbn. lia.
    - destruct (cc_is_valid (Some (x :: s))) eqn:V; [|discriminate]. cbn [negb] in E. injection E as <-.
      exists (cc_copy (x :: s)). split; auto. right. revert S0 V. unfold cc_str.
      destruct (_ =? 0); [discriminate|]. destruct (nth 1 r 0 =? 0); intros S0; injection S0 as <- <-; [discriminate|].
      unfold cc_copy, chr. cbn [nth fst snd]. auto. }
  destruct Ex as (c & -> & Cc). destruct Wm. split; auto.
  - cbn. pose proof (field_bound r 4 4 O). cbn in *. lia.
  - cbn. rewrite F, N.lor_0_l. pose proof (field_bound r 8 2 O). cbn in *. lia.
Qed.

Section Records.
Variable d : db.
Hypothesis Long : 4200 <= flen (d_file d).
Hypothesis Small : flen (d_file d) < 2 ^ 63.

Lemma object_safe table len n off : len <= 4200 -> object (d_file d) table len n = Some off ->
  exists r, rd (d_file d) off len = Ok r.
Proof.
  intros L. unfold object. destruct (check_boundaries _ _ _) eqn:E; [|discriminate]. intros H. injection H as <-.
  apply check_small in E; [|lia|lia]. unfold rd. unfold flen in E.
  replace (_ <=? _) with true by lia. eauto.
Qed.

Lemma fetch_node_safe i : exists r, fetch_node d i = Ok r.
Proof.
  unfold fetch_node. destruct (object _ _ _ _) as [off|] eqn:E; [|eauto].
  destruct (object_safe _ NODE_SIZE _ _ ltac:(unfold NODE_SIZE; lia) E) as [r ->]. cbn [bind]. eauto.
Qed.
Lemma fetch_network_safe a p i : exists n c, fetch_network d a p i = Ok (n, c).
Proof.
  unfold fetch_network. destruct (_ <=? _); [eauto|]. destruct (object _ _ _ _) as [off|] eqn:E; [|eauto].
  destruct (object_safe _ NETWORK_SIZE _ _ ltac:(unfold NETWORK_SIZE; lia) E) as [r ->]. cbn [bind].
  destruct (network_from_database a p r). eauto.
Qed.

(** strings, if the pool is inside the file and ends with a NUL *)
Lemma scan_safe l : In 0 l -> exists s, scan l = Ok s.
Proof.
  induction l as [|x l IH]; [intros []|]. cbn [scan]. intros H. destruct (N.eqb_spec x 0) as [|N0]; [eauto|].
  destruct H as [H|H]; [congruence|]. destruct (IH H) as [s ->]. cbn [bind]. eauto.
Qed.
Lemma skipn_in {A} (l : list A) i j x : nth_error l i = Some x -> (j <= i)%nat -> In x (skipn j l).
Proof.
  intros E L. apply nth_error_In with (n := (i - j)%nat). rewrite <- E. clear E. revert i j L.
  induction l as [|y l IH]; intros i j L; [now rewrite skipn_nil; destruct i, (_ - _)%nat|].
  destruct j as [|j]; [now rewrite Nat.sub_0_r|]. destruct i as [|i]; [lia|]. cbn [skipn Nat.sub nth_error]. apply IH. lia.
Qed.

Definition pool_closed : Prop :=
  exists i, fst (d_pool d) + snd (d_pool d) <= N.of_nat i + 1 /\ nth_error (d_file d) i = Some 0.

Lemma db_string_safe off : pool_closed -> exists s, db_string d off = Ok s.
Proof.
  intros (i & B & E). unfold db_string. destruct (N.leb_spec (snd (d_pool d)) off) as [|L]; [eauto|].
  assert ((i < length (d_file d))%nat) by (apply nth_error_Some; congruence).
  replace (flen (d_file d) <? fst (d_pool d) + off) with false by (unfold flen; lia).
  destruct (scan_safe (skipn (N.to_nat (fst (d_pool d) + off)) (d_file d))) as [s ->].
  - apply (skipn_in _ i); auto. lia.
  - cbn [bind]. eauto.
Qed.

Lemma fetch_as_safe i : pool_closed -> (exists a, fetch_as d i = Ok a) \/ fetch_as d i = Err 1.
Proof.
  intros P. unfold fetch_as. destruct (_ <=? _); [auto|]. destruct (object _ _ _ _) as [off|] eqn:E; [|auto].
  destruct (object_safe _ AS_SIZE _ _ ltac:(unfold AS_SIZE; lia) E) as [r ->]. cbn [bind].
  destruct (db_string_safe (field r 4 4) P) as [s ->]. cbn [bind]. eauto.
Qed.
Lemma fetch_country_safe i : pool_closed -> (exists c, fetch_country d i = Ok c) \/ fetch_country d i = Err 1.
Proof.
  intros P. unfold fetch_country. destruct (_ <=? _); [auto|]. destruct (object _ _ _ _) as [off|] eqn:E; [|auto].
  destruct (object_safe _ COUNTRY_SIZE _ _ ltac:(unfold COUNTRY_SIZE; lia) E) as [r ->]. cbn [bind].
  unfold country_from_database. unfold country_new. destruct (cc_is_valid _); [|auto]. cbn [negb bind].
  destruct (db_string_safe (field r 4 4) P) as [s ->].
  destruct (nth 2 r 0 =? 0); cbn [bind]; destruct s as [s|]; [left|left|left|left]; cbn; eauto.
Qed.
Lemma get_as_loop_safe number fuel : pool_closed -> forall lo hi, get_as_loop d number lo hi fuel <> UB.
Proof.
  intros P. induction fuel as [|fuel IH]; intros lo hi; cbn [get_as_loop]; destruct (lo <=? hi)%Z; try discriminate.
  destruct (fetch_as_safe (Z.to_N ((lo + hi) / 2)) P) as [[a ->]| ->]; cbn [bind]; [|discriminate].
  destruct (_ =? _); [discriminate|]. destruct (_ <? _); apply IH.
Qed.
Lemma get_country_loop_safe code fuel : pool_closed -> forall lo hi, get_country_loop d code lo hi fuel <> UB.
Proof.
  intros P. induction fuel as [|fuel IH]; intros lo hi; cbn [get_country_loop]; destruct (lo <=? hi)%Z; try discriminate.
  destruct (fetch_country_safe (Z.to_N ((lo + hi) / 2)) P) as [[a ->]| ->]; cbn [bind]; [|discriminate].
  destruct (_ =? _)%Z; [discriminate|]. destruct (_ <? _)%Z; apply IH.
Qed.
(** the bisections also end *)
Lemma get_as_loop_ends number fuel : forall lo hi, (hi - lo < Z.of_nat fuel)%Z -> get_as_loop d number lo hi fuel <> Fuel.
Proof.
  induction fuel as [|fuel IH]; intros lo hi L; cbn [get_as_loop]; destruct (Z.leb_spec lo hi); try discriminate; try lia.
  assert (B : (lo <= (lo + hi) / 2 <= hi)%Z) by (split; [apply Z.div_le_lower_bound|apply Z.div_le_upper_bound]; lia).
  destruct (fetch_as d (Z.to_N ((lo + hi) / 2))) as [a|c| |] eqn:E; cbn [bind]; try discriminate.
  - destruct (_ =? _); [discriminate|]. destruct (_ <? _); apply IH; lia.
  - exfalso. revert E. unfold fetch_as, db_string. destruct (_ <=? _); [discriminate|].
    destruct (object _ _ _ _); [|discriminate]. unfold rd. destruct (_ <=? _); [|discriminate]. cbn [bind].
    destruct (_ <=? _); [discriminate|]. destruct (_ <? _); [discriminate|].
    destruct (scan _) as [s| | |] eqn:Es; try discriminate. intros _. revert Es. generalize (skipn (N.to_nat (fst (d_pool d) + field (firstn (N.to_nat AS_SIZE) (skipn (N.to_nat n) (d_file d))) 4 4)) (d_file d)).
    intros l. induction l as [|x l IHl]; cbn [scan]; [discriminate|]. destruct (x =? 0); [discriminate|].
    destruct (scan l); try discriminate. auto.
Qed.

(** ** lookup *)
Lemma from_database_cases a p r : wf a ->
  match network_from_database a p r with
  | (Some _, c) => (c <= 0)%Z
  | (None, c) => c = 1%Z
  end.
Proof.
  intros W. unfold network_from_database.
  match goal with |- context [network_new a ?q] => pose proof (network_new_spec a q W) as NN; set (pr := q) in * end.
  destruct (pr <=? low_bits (val a)).
  - destruct NN as (n & -> & _). unfold set_country_code.
    destruct (cc_str _) as [|x s]; [lia|]. destruct (negb _); unfold EINVAL; lia.
  - rewrite NN. reflexivity.
Qed.

Lemma handle_leaf_cases a na level r : wf a -> wf na ->
  exists n c, handle_leaf d a na level r = Ok (n, c) /\
    match n with
    | Some n => (c < 0)%Z \/ (c = 0%Z /\ network_matches_address n a = true /\ (octets (d_file d) -> net_wf n))
    | None => c = 1%Z
    end.
Proof.
  intros Wa Wn. unfold handle_leaf.
  assert (F : exists n c, fetch_network d na level (snd r) = Ok (n, c) /\
    match n with Some n => (c <= 0)%Z /\ (c = 0%Z -> octets (d_file d) -> net_wf n) | None => c = 1%Z end).
  { unfold fetch_network. destruct (_ <=? _); [exists None, 1%Z; auto|].
    destruct (object _ _ _ _) as [off|] eqn:E; [|exists None, 1%Z; auto].
    destruct (object_safe _ NETWORK_SIZE _ _ ltac:(unfold NETWORK_SIZE; lia) E) as [b Hb]. rewrite Hb. cbn [bind].
    pose proof (from_database_cases na level b Wn) as X. pose proof (from_database_wf na level b) as Y.
    destruct (network_from_database na level b) as [n c].
    exists n, c. split; auto. destruct n as [n|]; auto. split; auto. intros -> O. apply Y; auto.
    exact (rd_octets _ _ _ _ Hb O). }
  destruct F as (n & c & -> & X). cbn [bind].
  destruct n as [n|].
  - destruct (Z.eqb_spec c 0) as [->|Nz]; cbn [negb].
    + destruct (network_matches_address n a) eqn:M.
      * exists (Some n), 0%Z. split; auto. right. split; auto. split; auto. now apply X.
      * exists None, 1%Z. auto.
    + exists (Some n), c. split; auto. left. destruct X. lia.
  - subst c. cbn. exists None, 1%Z. auto.
Qed.

Lemma set_bit_wf beyond na level b na' : wf na -> set_bit beyond na level b = Ok na' -> wf na'.
Proof.
  intros W. unfold set_bit. destruct (_ <? _)%nat.
  - intros H. injection H as <-. now apply addr_set_bit_wf.
  - destruct (beyond level); [|discriminate]. intros H. now injection H as <-.
Qed.

Lemma lookup_loop_cases beyond a fuel : wf a -> forall na index level, wf na ->
  match lookup_loop beyond d a na index level fuel with
  | Ok (n, na', r) => wf na' /\
      match n with
      | Some n => (r < 0)%Z \/ (r = 0%Z /\ network_matches_address n a = true /\ (octets (d_file d) -> net_wf n))
      | None => (0 <= r)%Z
      end
  | Err _ => False
  | UB => exists i, (128 <= i < level + fuel)%nat /\ beyond i = None
  | Fuel => True
  end.
Proof.
  intros Wa. induction fuel as [|fuel IH]; intros na index level Wn; [exact I|]. cbn [lookup_loop].
  destruct (fetch_node_safe index) as [[node|] ->]; cbn [bind]; [|split; [auto|lia]].
  assert (GB : (exists bit na1, get_bit beyond a level = Ok bit /\ set_bit beyond na level bit = Ok na1) \/
               ((128 <= level)%nat /\ beyond level = None)).
  { unfold get_bit, set_bit. destruct (Nat.ltb_spec level 128) as [L|L]; [eauto|]. destruct (beyond level); eauto. }
  destruct GB as [(bit & na1 & E1 & E2)|[L B]].
  2:{ unfold get_bit. replace (level <? 128)%nat with false by lia. rewrite B. cbn [bind]. exists level. split; auto. lia. }
  rewrite E1. cbn [bind]. rewrite E2. cbn [bind]. pose proof (set_bit_wf _ _ _ _ _ Wn E2) as W1.
  assert (LF : forall na2, wf na2 -> match (if is_leaf node then
        do (n, r) <- handle_leaf d a na2 (N.of_nat level) node;
        (if (r <? 0)%Z then Ok (n, na2, r) else Ok (n, na2, 0%Z))
      else Ok (None, na2, 0%Z)) with
     | Ok (n, na', r) => wf na' /\
      match n with
      | Some n => (r < 0)%Z \/ (r = 0%Z /\ network_matches_address n a = true /\ (octets (d_file d) -> net_wf n))
      | None => (0 <= r)%Z
      end
     | Err _ => False
     | UB => exists i, (128 <= i < level + S fuel)%nat /\ beyond i = None
     | Fuel => True
     end).
  { intros na2 W2. destruct (is_leaf node); [|split; [auto|lia]].
    destruct (handle_leaf_cases a na2 (N.of_nat level) node Wa W2) as (n & c & -> & X). cbn [bind].
    destruct n as [n|].
    - destruct X as [X|[-> X]]; [replace (c <? 0)%Z with true by lia; auto|]. cbn. auto.
    - subst c. cbn. split; [auto|lia]. }
  destruct (0 <? _); [|apply LF; auto].
  destruct (_ <=? _); [split; [auto|lia]|].
  match goal with |- context [lookup_loop _ _ _ _ ?i _ _] => specialize (IH na1 i (S level) W1);
    destruct (lookup_loop beyond d a na1 i (S level) fuel) as [[[n na2] r]| | |] end; cbn [bind]; auto.
  - destruct IH as [W2 X]. destruct (Z.eqb_spec r 0) as [->|Nz]; [split; auto|].
    destruct (Z.ltb_spec r 0) as [Ng|Ng]; [split; auto|]. destruct n as [n|]; [exfalso; destruct X as [X|[X _]]; lia|].
    apply LF; auto.
  - destruct IH as (i & Hi & B). exists i. split; auto. lia.
Qed.
End Records.

Lemma scan_ends l : scan l <> Fuel.
Proof.
  induction l as [|x l IH]; cbn [scan]; [discriminate|]. destruct (x =? 0); [discriminate|].
  destruct (scan l); try discriminate. contradiction.
Qed.

Section Opened.
Variables (f : list N) (d : db).
Hypothesis Small : flen f < 2 ^ 63.
Hypothesis Open : db_open f = Ok d.

Lemma opened_long : 4200 <= flen (d_file d) /\ flen (d_file d) < 2 ^ 63 /\ d_file d = f.
Proof. destruct (opened_file f d Open) as (E & L & _). rewrite E. auto. Qed.

Lemma records_safe :
  (forall i, exists r, fetch_node d i = Ok r) /\
  (forall a p i, exists n c, fetch_network d a p i = Ok (n, c)).
Proof.
  destruct opened_long as (L & S0 & _). split; [exact (fetch_node_safe d L S0)|exact (fetch_network_safe d L S0)].
Qed.

Lemma strings_safe i : nth_error f i = Some 0 -> fst (d_pool d) + snd (d_pool d) <= N.of_nat i + 1 ->
  (exists s, get_vendor d = Ok s) /\ (exists s, get_description d = Ok s) /\ (exists s, get_license d = Ok s) /\
  (forall k, fetch_as d k = Err 1 \/ exists y, fetch_as d k = Ok y) /\
  (forall k, fetch_country d k = Err 1 \/ exists y, fetch_country d k = Ok y) /\
  (forall n, get_as d n = Err 1 \/ exists y, get_as d n = Ok y) /\
  (forall s, get_country d s = Err 1 \/ exists y, get_country d s = Ok y).
Proof.
  intros Z B. destruct opened_long as (L & S0 & E).
  assert (P : pool_closed d) by (exists i; rewrite E; auto).
  unfold get_vendor, get_description, get_license.
  split; [now apply db_string_safe|]. split; [now apply db_string_safe|]. split; [now apply db_string_safe|].
  assert (FA : forall k, fetch_as d k = Err 1 \/ exists y, fetch_as d k = Ok y)
    by (intros k; destruct (fetch_as_safe d L S0 k P); auto).
  assert (FC : forall k, fetch_country d k = Err 1 \/ exists y, fetch_country d k = Ok y)
    by (intros k; destruct (fetch_country_safe d L S0 k P); auto).
  split; auto. split; auto. split.
  - intros n. unfold get_as. set (fuel := N.to_nat _).
    assert (H : (Z.of_N (snd (d_as d)) - 1 - 0 < Z.of_nat fuel)%Z) by (unfold fuel; lia).
    clearbody fuel. revert H. generalize 0%Z as lo. generalize (Z.of_N (snd (d_as d)) - 1)%Z as hi.
    induction fuel as [|fuel IH]; intros hi lo H; cbn [get_as_loop]; destruct (Z.leb_spec lo hi); auto; try lia.
    assert (Bi : (lo <= (lo + hi) / 2 <= hi)%Z) by (split; [apply Z.div_le_lower_bound|apply Z.div_le_upper_bound]; lia).
    destruct (FA (Z.to_N ((lo + hi) / 2))) as [->|[a ->]]; cbn [bind]; auto.
    destruct (_ =? _); [eauto|]. destruct (_ <? _); apply IH; lia.
  - intros s. unfold get_country. destruct (cc_is_valid s) eqn:V; cbn [negb]; auto.
    destruct s as [s|]; [|discriminate]. set (fuel := N.to_nat _).
    assert (H : (Z.of_N (snd (d_countries d)) - 1 - 0 < Z.of_nat fuel)%Z) by (unfold fuel; lia).
    clearbody fuel. revert H. generalize 0%Z as lo. generalize (Z.of_N (snd (d_countries d)) - 1)%Z as hi.
    induction fuel as [|fuel IH]; intros hi lo H; cbn [get_country_loop]; destruct (Z.leb_spec lo hi); eauto; try lia.
    assert (Bi : (lo <= (lo + hi) / 2 <= hi)%Z) by (split; [apply Z.div_le_lower_bound|apply Z.div_le_upper_bound]; lia).
    destruct (FC (Z.to_N ((lo + hi) / 2))) as [->|[a ->]]; cbn [bind]; auto.
    destruct (_ =? _)%Z; [eauto|]. destruct (_ <? _)%Z; apply IH; lia.
Qed.

(** a pool that is not longer than the file is inside it *)
Lemma pool_inside : snd (d_pool d) <= flen f -> fst (d_pool d) + snd (d_pool d) <= flen f.
Proof.
  revert Open. unfold db_open. destruct (check_magic f) as [v| | |] eqn:M; try discriminate. cbn [bind].
  apply check_magic_spec in M as (_ & _ & -> & _). cbn [N.eqb Pos.eqb VERSION_1]. unfold read_header_v1.
  destruct (negb (check_boundaries f MAGIC_SIZE HEADER_SIZE)); try discriminate.
  destruct (rd f MAGIC_SIZE HEADER_SIZE) as [h| | |]; try discriminate. cbn [bind].
  unfold read_signature. destruct (_ <? _); try discriminate. cbn [bind]. destruct (_ <? _); try discriminate. cbn [bind].
  destruct (check_boundaries f (field h 52 4) (field h 56 4)) eqn:C; try discriminate. cbn [negb].
  intros H. apply (f_equal (fun r => match r with Ok y => d_pool y | _ => d_pool d end)) in H. cbv beta iota in H.
  cbn [d_pool] in H. rewrite <- H. cbn [fst snd]. intros L. apply check_small in C; auto. lia.
Qed.

Lemma lookup_any beyond a fuel : is_addr a ->
  match lookup beyond d a fuel with
  | Ok (Some n, r) => (r < 0)%Z \/ (r = 0%Z /\ (octets f -> valid_network n /\ member n (num a)))
  | Ok (None, r) => (0 <= r)%Z
  | Err _ => False
  | UB => exists i, (128 <= i < fuel)%nat /\ beyond i = None
  | Fuel => True
  end.
Proof.
  intros A. destruct opened_long as (L & S0 & E). unfold lookup.
  assert (Wa : wf a) by (destruct A; split; auto).
  assert (W0 : wf (repeat 0 16)) by (split; [reflexivity|repeat constructor]).
  pose proof (lookup_loop_cases d L S0 beyond a fuel Wa (repeat 0 16) 0 0%nat W0) as X.
  destruct (lookup_loop beyond d a (repeat 0 16) 0 0 fuel) as [[[n na] r]| | |]; cbn [bind]; auto.
  destruct X as [_ X]. destruct n as [n|]; auto. destruct X as [X|(-> & M & V)]; auto. right. split; auto.
  intros O. rewrite E in V. specialize (V O). split; [now apply valid_net_wf|].
  apply member_inb. now apply matches_iff in M.
Qed.
End Opened.

Lemma open_safe f : flen f < 2 ^ 63 -> flen f < 8 \/ 4192 <= flen f -> db_open f = Err 1 \/ exists d, db_open f = Ok d.
Proof.
  intros S0 H. unfold db_open. destruct (check_magic_cases f) as [->|M]; auto. rewrite M. cbn [bind N.eqb Pos.eqb VERSION_1].
  apply check_magic_spec in M as (L8 & _). unfold read_header_v1.
  destruct (check_boundaries f MAGIC_SIZE HEADER_SIZE) eqn:C; cbn [negb]; auto.
  apply check_small in C; [|lia|unfold flen, HEADER_SIZE in *; lia]. unfold rd.
  replace (MAGIC_SIZE + HEADER_SIZE <=? N.of_nat (length f)) with true by (unfold flen in C; lia). cbn [bind].
  set (h := firstn _ _). clearbody h. unfold read_signature. destruct (_ <? _); auto. cbn [bind]. destruct (_ <? _); auto. cbn [bind].
  destruct (negb _); eauto.
Qed.

(** a lookup that never goes beyond the last bit *)
Lemma lookup_loop_fuel beyond d a fuel : forall na index level na' n r,
  lookup_loop beyond d a na index level fuel = Ok (n, na', r) ->
  lookup_loop beyond d a na index level (S fuel) = Ok (n, na', r).
Proof.
  induction fuel as [|fuel IH]; intros na index level na' n r H; [discriminate|].
  remember (S fuel) as fuel1 eqn:Ef. rewrite Ef in H. cbn [lookup_loop] in *.
  destruct (fetch_node d index) as [[node|]| | |]; cbn [bind] in *; auto.
  destruct (get_bit beyond a level) as [bit| | |]; cbn [bind] in *; auto.
  destruct (set_bit beyond na level bit) as [na1| | |]; cbn [bind] in *; auto.
  destruct (0 <? _); auto. destruct (_ <=? _); auto.
  match goal with |- context [lookup_loop beyond d a na1 ?i _ fuel1] => set (i1 := i) in * end.
  destruct (lookup_loop beyond d a na1 i1 (S level) fuel) as [[[n1 na2] r1]| | |] eqn:E; cbn [bind] in H; try discriminate.
  apply IH in E. rewrite E. exact H.
Qed.

Lemma any_contains f d : flen f < 2 ^ 63 -> octets f -> db_open f = Ok d ->
  forall beyond fuel a n, is_addr a -> lookup beyond d a fuel = Ok (Some n, 0%Z) -> valid_network n /\ member n (num a).
Proof.
  intros S0 O Op beyond fuel a n A E. pose proof (lookup_any f d S0 Op beyond a fuel A) as X. rewrite E in X.
  destruct X as [X|[_ X]]; [lia|]. now apply X.
Qed.
Lemma any_return f d : flen f < 2 ^ 63 -> db_open f = Ok d ->
  forall beyond fuel a n r, is_addr a -> lookup beyond d a fuel = Ok (n, r) ->
  match n with Some _ => (r <= 0)%Z | None => (0 <= r)%Z end.
Proof.
  intros S0 Op beyond fuel a n r A E. pose proof (lookup_any f d S0 Op beyond a fuel A) as X. rewrite E in X.
  destruct n; auto. destruct X as [X|[-> _]]; lia.
Qed.
Lemma any_safe f d : flen f < 2 ^ 63 -> db_open f = Ok d -> forall beyond fuel a, is_addr a ->
  (fuel <= 128)%nat \/ (forall i, (128 <= i < fuel)%nat -> beyond i <> None) ->
  lookup beyond d a fuel = Fuel \/ exists r, lookup beyond d a fuel = Ok r.
Proof.
  intros S0 Op beyond fuel a A H. pose proof (lookup_any f d S0 Op beyond a fuel A) as X.
  destruct (lookup beyond d a fuel) as [r| | |]; eauto; [contradiction|]. exfalso. destruct X as (i & I & B).
  destruct H as [H|H]; [lia|]. now apply (H i).
Qed.

Lemma cycle_runs d : fetch_node d 0 = Ok (Some (1, 1, NO_NETWORK)) -> fetch_node d 1 = Ok (Some (1, 1, NO_NETWORK)) ->
  snd (d_tree d) = 2 ->
  (forall fuel, lookup (fun _ => Some 0) d (repeat 0 16) fuel = Fuel) /\ lookup (fun _ => None) d (repeat 0 16) 129 = UB.
Proof.
  intros F0 F1 C. split.
  - assert (G : forall fuel na index level, index = 0 \/ index = 1 ->
      lookup_loop (fun _ => Some 0) d (repeat 0 16) na index level fuel = Fuel).
    { induction fuel as [|fuel IH]; intros na index level I; [reflexivity|]. cbn [lookup_loop].
      replace (fetch_node d index) with (@Ok (option node_rec) (Some (1, 1, NO_NETWORK))) by (destruct I; subst; auto).
      cbn [bind]. unfold get_bit, set_bit. rewrite C.
      destruct (level <? 128)%nat; cbn [bind]; destruct (_ =? 0); cbn [fst snd N.ltb N.compare N.leb Pos.compare Pos.compare_cont];
        rewrite IH by auto; reflexivity. }
    intros fuel. unfold lookup. rewrite G by auto. reflexivity.
  - assert (G : forall fuel na index level, index = 0 \/ index = 1 -> (level + fuel = 129)%nat -> (level <= 128)%nat ->
      lookup_loop (fun _ => None) d (repeat 0 16) na index level fuel = UB).
    { induction fuel as [|fuel IH]; intros na index level I L L2; [lia|]. cbn [lookup_loop].
      replace (fetch_node d index) with (@Ok (option node_rec) (Some (1, 1, NO_NETWORK))) by (destruct I; subst; auto).
      cbn [bind]. unfold get_bit, set_bit. rewrite C.
      destruct (Nat.ltb_spec level 128); cbn [bind]; [|reflexivity].
      destruct (_ =? 0); cbn [fst snd N.ltb N.compare N.leb Pos.compare Pos.compare_cont];
        rewrite IH by (auto; lia); reflexivity. }
    unfold lookup. rewrite G by (auto; lia). reflexivity.
Qed.

Lemma opened_format f d : db_open f = Ok d -> firstn 7 f = MAGIC /\ nth 7 f 0 = 1 /\ 4200 <= flen f.
Proof. intros E. destruct (opened_file f d E) as (_ & L & M & V & _). auto. Qed.
Lemma open_rejected f :
  flen f < 8 \/ firstn 7 f <> MAGIC \/ nth 7 f 0 <> 1 \/ 4192 <= flen f < 4200 -> db_open f = Err 1.
Proof.
  intros [H|[H|[H|H]]]; [apply open_rejects; auto|apply open_rejects; auto|apply open_rejects; auto|now apply open_short].
Qed.
