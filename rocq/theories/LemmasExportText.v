(** The text the exporter writes. *)
From Coq Require Import String.
From Coq Require Import NArith ZArith List Bool Arith Lia ZifyBool ZifyNat ZifyN.
From Verif Require Import Base LemmasBase ModelAddress LemmasAddress ModelCountryCode ModelNetwork LemmasNetwork SpecNetwork LemmasSpecNetwork ModelDownload ModelText SpecText
  LemmasText LemmasTextAddr LemmasTextNet LemmasTextCases ModelExport SpecExport LemmasDownload.
Import ListNotations.
Open Scope N_scope.

Definition wordc (s : cstr) : Prop := Forall (fun c => 46 <= c <= 102) s.

Lemma digits_word base fuel : base <= 16 -> base <> 0 -> forall n, wordc (digits base fuel n).
Proof.
  intros B Z. unfold wordc. assert (D : forall d, d < base -> 46 <= digit_char d <= 102).
  { intros d H. unfold digit_char. destruct (d <? 10) eqn:E; lia. }
  induction fuel as [|fuel IH]; intros n; cbn [digits]; [constructor|].
  destruct (N.ltb_spec n base); [constructor; auto|]. apply Forall_app. split; auto. constructor; auto. apply D. now apply N.mod_lt.
Qed.
Lemma dec_word n : wordc (dec n).
Proof. apply digits_word; [lia|discriminate]. Qed.
Lemma hex_word n : wordc (hex n).
Proof. apply digits_word; [lia|discriminate]. Qed.
Lemma ntop4_word l : wordc (ntop4 l).
Proof.
  unfold ntop4, wordc. repeat (apply Forall_app; split; [apply dec_word|]; try (constructor; [split; discriminate|])). apply dec_word.
Qed.
Lemma ntop6_loop_word a ws best n : forall i, wordc (ntop6_loop a ws best i n).
Proof.
  unfold wordc. induction n as [|n IH]; intros i; cbn [ntop6_loop]; [constructor|]. specialize (IH (S i)). destruct (in_run best i).
  - apply Forall_app. split; auto. destruct (run_base best i); repeat constructor; discriminate.
  - apply Forall_app. split; [destruct (i =? 0)%nat; repeat constructor; discriminate|].
    destruct ((i =? 6)%nat && ipv4_tail best ws); [apply ntop4_word|]. apply Forall_app. split; auto. apply hex_word.
Qed.
Lemma text_word a : wordc (text a).
Proof.
  unfold text. destruct (v4mapped a); [apply ntop4_word|]. unfold ntop6, wordc. apply Forall_app. split; [apply ntop6_loop_word|].
  destruct (best_run (words a)) as [[b l]|]; [|constructor]. destruct (b + l =? 8)%nat; repeat constructor; discriminate.
Qed.

Lemma net_text_word n : valid_network n -> word (net_text n) /\ reads (net_text n) n.
Proof.
  intros V. apply valid_net_wf in V. destruct (text_round_trip ring0 n ring0_ok V) as (r' & s & m & E & Q).
  assert (S1 : net_text n = s) by (unfold net_text; now rewrite E). rewrite S1. split; [|exists m; exact Q].
  pose proof (network_str_eq ring0 n ring0_ok V) as E'. rewrite E in E'. 
  assert (S2 : s = text (n_first n) ++ SLASH :: dec (network_prefix n)) by congruence. rewrite S2. split.
  - destruct (text (n_first n)); discriminate.
  - apply Forall_app. split; [apply text_word|]. constructor; [split; discriminate|]. apply dec_word.
Qed.

Definition lines_of (shape : cstr -> cstr) (texts : list cstr) : cstr := flat_map shape texts.
Lemma texts_of ns : Forall valid_network ns -> Forall word (map net_text ns) /\ Forall2 reads (map net_text ns) ns.
Proof.
  induction 1 as [|n ns V _ [I1 I2]]; cbn [map]; [auto|]. destruct (net_text_word n V). auto.
Qed.

Lemma flat_map_map {A B C} (f : B -> list C) (g : A -> B) l : flat_map f (map g l) = flat_map (fun x => f (g x)) l.
Proof. induction l as [|x l IH]; cbn [map flat_map]; [auto|now rewrite IH]. Qed.

Lemma list_file_text ns : Forall valid_network ns -> exists texts,
  Forall word texts /\ Forall2 reads texts ns /\ list_file ns = flat_map (fun s => s ++ [10]) texts.
Proof.
  intros V. exists (map net_text ns). destruct (texts_of ns V). split; auto. split; auto. now rewrite flat_map_map.
Qed.
Lemma nft_file_text t ns : Forall valid_network ns -> exists texts,
  Forall word texts /\ Forall2 reads texts ns /\
  nft_file t ns = txt "define " ++ t ++ txt " = {" ++ [10] ++ flat_map (fun s => 9 :: s ++ [44; 10]) texts ++ [125; 10].
Proof.
  intros V. exists (map net_text ns). destruct (texts_of ns V). split; auto. split; auto. rewrite flat_map_map. unfold nft_file.
  reflexivity.
Qed.

(** ** ipset: the header is written over the first one *)
Lemma fwrite_end c b : fwrite (mkFile c (length c)) b = mkFile (c ++ b) (length (c ++ b)).
Proof.
  unfold fwrite. cbn [pos content]. rewrite firstn_all, skipn_all2, app_nil_r, app_length by lia. reflexivity.
Qed.
Lemma fwrites_end t ns : forall c, fold_left (fun file n => fwrite file (ipset_line t n)) ns (mkFile c (length c)) =
  mkFile (c ++ flat_map (ipset_line t) ns) (length (c ++ flat_map (ipset_line t) ns)).
Proof.
  induction ns as [|n ns IH]; intros c; cbn [fold_left flat_map]; [now rewrite app_nil_r|]. rewrite fwrite_end, IH, <- app_assoc. reflexivity.
Qed.
Lemma ipset_file_eq t f h ns : ipset_file t f h ns =
  ipset_header t f h ++ skipn (length (ipset_header t f h)) (ipset_header t f 64 ++ flat_map (ipset_line t) ns).
Proof.
  unfold ipset_file. change (mkFile [] 0) with (mkFile [] (length (@nil N))). rewrite fwrite_end, fwrites_end. cbn [app content].
  unfold fwrite. cbn [pos content firstn app Nat.add]. reflexivity.
Qed.

Lemma pad8_length s : length (pad8 s) = Nat.max 8 (length s).
Proof. unfold pad8. rewrite app_length, repeat_length. lia. Qed.
Lemma header_length t f h : length (ipset_header t f h) = (length (ipset_header t f 0) - 8 + length (pad8 (dec h)))%nat.
Proof.
  unfold ipset_header. rewrite !app_length. assert (length (pad8 (dec 0)) = 8%nat) as -> by reflexivity.
  generalize (length (pad8 (dec h))). intros. generalize (length (txt "create ")) (length t). intros. lia.
Qed.

Lemma ipset_overwritten t f h ns : ipset_file t f h ns =
  ipset_header t f h ++ skipn (length (dec h) - 8) (flat_map (ipset_line t) ns).
Proof.
  rewrite ipset_file_eq. f_equal. rewrite skipn_app.
  assert (L : (length (ipset_header t f h) - length (ipset_header t f 64) = length (dec h) - 8)%nat).
  { rewrite (header_length t f h), (header_length t f 64), !pad8_length. replace (length (dec 64)) with 2%nat by reflexivity. lia. }
  rewrite L. rewrite skipn_all2; [reflexivity|].
  rewrite (header_length t f h), (header_length t f 64), !pad8_length. replace (length (dec 64)) with 2%nat by reflexivity. lia.
Qed.

Lemma ipset_file_text t f h ns : Forall valid_network ns -> h < 10 ^ 8 -> exists texts number spaces,
  Forall word texts /\ Forall2 reads texts ns /\ decimal number h /\
  ipset_file t f h ns = txt "create " ++ t ++ txt " hash:net family inet" ++ (match f with AF_INET6 => [54] | AF_INET => [] end) ++
    txt " hashsize " ++ repeat 32 spaces ++ number ++ txt " maxelem 1048576 -exist" ++ [10] ++ txt "flush " ++ t ++ [10] ++
    flat_map (fun s => txt "add " ++ t ++ [32] ++ s ++ [10]) texts.
Proof.
  intros V H. exists (map net_text ns), (dec h), (8 - length (dec h))%nat. destruct (texts_of ns V). split; auto. split; auto. split.
  { pose proof (dec_plain h ltac:(lia)) as P. unfold plain_decimal in P. apply P. }
  rewrite ipset_overwritten. replace (length (dec h) - 8)%nat with 0%nat by (pose proof (dec_length 7 h ltac:(cbn; lia) ltac:(lia)); lia).
  cbn [skipn]. unfold ipset_header, pad8, NL. rewrite flat_map_map. unfold ipset_line. rewrite <- !app_assoc. destruct f; reflexivity.
Qed.
