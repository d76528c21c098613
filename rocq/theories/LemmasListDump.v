(** What the dump command prints for databases that were written. *)
From Coq Require Import String.
From Coq Require Import NArith ZArith List Bool Arith Lia ZifyBool ZifyNat ZifyN Sorting.Sorted.
From Verif Require Import Base LemmasBase ModelAddress ModelCountryCode ModelNetwork LemmasNetwork ModelNetworkList SpecNetworkList
  ModelTree SpecTree LemmasSpecNetwork ModelStringPool ModelObjects ModelText SpecText LemmasText
  ModelFile ModelWriter ModelDatabase ModelEnum SpecEnum ModelExport SpecNetwork SpecObjects SpecExport SpecResolv SpecUpdate SpecWriter
  LemmasObjects LemmasWriter LemmasDb LemmasDbProps LemmasEnumAs LemmasEnumDb LemmasExport LemmasExportText
  ModelDownload ModelUpdate LemmasUpdateDb ModelBindings ModelCommand SpecCommand LemmasBindings LemmasCommand LemmasBindingsDb ModelList SpecList LemmasList LemmasListDb LemmasListMore.
Import ListNotations.
Open Scope N_scope.
Local Opaque cleanup.

(** ** Blocks *)
Definition as_block (a : as_obj) : list cstr :=
  [[]; dump_line (txt "aut-num:") (txt "AS" ++ dec (as_number a)); dump_line (txt "name:") (or_empty (as_name a))].
Lemma dump_as_ok a s : as_number a < 2 ^ 32 -> as_name a = Some s -> utf8 s = true ->
  dump_as a = printed (as_block a) /\ dumped_as (as_number a) s (as_block a).
Proof.
  intros B E U. unfold dump_as, as_block, py_as_name, py_text. rewrite E, U. split; [reflexivity|].
  exists (dec (as_number a)). split; [now apply dec_plain|reflexivity].
Qed.

Definition net_block (n : network) : list cstr :=
  [[]; dump_line (txt "net:") (net_text n)] ++
    (match get_country_code n with [] => [] | c => [dump_line (txt "country:") c] end) ++
    (if n_asn n =? 0 then [] else [dump_line (txt "aut-num:") (dec (n_asn n))]) ++
    map (fun x => dump_line (snd x) (txt "yes")) (filter (fun x => N.testbit (n_flags n) (fst x)) dump_labels).
Lemma dump_network_ok n : valid_network n -> net_wf n -> dump_network n = printed (net_block n) /\ dumped_network n (net_block n).
Proof.
  intros V W. split.
  2 : { destruct (net_text_word n V) as [Wd Rd]. exists (net_text n), (dec (n_asn n)). split; [exact Wd|]. split; [exact Rd|].
        split; [apply dec_plain, W|reflexivity]. }
  unfold dump_network, py_network_str, py_text. rewrite (net_text_utf8 n V).
  assert (C : py_country_code n = value (get_country_code n)).
  { unfold py_country_code, py_text. destruct (cc_text n W) as [E|E]; [now rewrite E|].
    destruct (cc_valid_two _ E) as (a & b & -> & A & B & _). rewrite ascii_utf8 by (repeat constructor; clear -A B; lia). reflexivity. }
  rewrite C. unfold py_asn, net_block.
  assert (Fl : flat_map (fun f0 => if py_has_flag n (fst f0) then [field (snd f0) (txt "yes")] else []) dump_flags =
               map (fun x => dump_line (snd x) (txt "yes")) (filter (fun x => N.testbit (n_flags n) (fst x)) dump_labels)).
  { unfold dump_flags, dump_labels. cbn [flat_map filter fst snd]. unfold py_has_flag, has_flag.
    change 1 with (2 ^ 0) at 1. change 4 with (2 ^ 2) at 1. change 8 with (2 ^ 3) at 1.
    change (N.land (n_flags n) 2) with (N.land (n_flags n) (2 ^ 1)). rewrite !flag_bit.
    destruct (N.testbit (n_flags n) 0), (N.testbit (n_flags n) 1), (N.testbit (n_flags n) 2), (N.testbit (n_flags n) 3); reflexivity. }
  rewrite Fl. destruct (get_country_code n), (n_asn n =? 0); reflexivity.
Qed.
Lemma forall2_map {A B} (P : A -> B -> Prop) g l : (forall a, In a l -> P a (g a)) -> Forall2 P l (map g l).
Proof. induction l as [|a l IH]; intros H; cbn [map]; constructor; [apply H; now left|apply IH; intros; apply H; now right]. Qed.

Section Db.
Variables (ctz0 : nat) (held : network -> bool) (key1 key2 : option evp).
Variables (os : list call) (w : writer) (x : save) (w' : writer) (f : list N) (d : db).
Hypothesis Call : Forall call_ok os.
Hypothesis Prog : program ctz0 held key1 key2 os = Ok w.
Hypothesis Write : write_to ctz0 held key1 key2 w x = Ok (0%Z, w', f).
Hypothesis Size : N.of_nat (length f) < 2 ^ 32.
Hypothesis Now : s_now x < 253402300800.
Hypothesis Open : db_open f = Ok d.
Hypothesis NoSave : Forall no_save os.
Hypothesis Enum : enumerable (given os).
Hypothesis Names : Forall (fun a => LemmasCommand.name_ok (the_name a)) (ases (meaning os)).
Hypothesis Vendor : is_text (vendor (meaning os)).
Hypothesis License : is_text (license (meaning os)).
Hypothesis Description : is_text (description (meaning os)).

Lemma dump_ok beyond fuel objects described years :
  (3 * N.to_nat (snd (d_tree d)) + 1 <= fuel)%nat -> (N.to_nat (snd (d_tree d)) + 1 <= objects)%nat -> (length (ases (meaning os)) < objects)%nat -> (3 <= years)%nat ->
  exists y m dd h mi s As as_lines Ns net_lines,
    valid_date y m dd h mi s /\ seconds_since_epoch y m dd h mi s = Z.of_N (s_now x) /\
    dump beyond fuel objects described d years = Ok (mkEnded 0
      (dump_head (meaning os) (date_text (weekday (Z.of_N (s_now x))) y m dd h mi s) (described (description (meaning os))) ++ concat as_lines ++ concat net_lines) []) /\
    StronglySorted (fun a b => the_number a < the_number b) As /\ (forall a, In a As <-> In a (ases (meaning os))) /\
    Forall2 (fun a => dumped_as (the_number a) (or_empty (the_name a))) As as_lines /\
    SpecNetworkList.ascending Ns /\ Forall2 dumped_network Ns net_lines /\
    forall v c a fl, v < 2 ^ 128 ->
      (exists z, most_specific Ns v z /\ get_country_code z = c /\ n_asn z = a /\ n_flags z = fl) <->
      (exists z, most_specific (given os) v z /\ get_country_code z = c /\ n_asn z = a /\ n_flags z mod 2 ^ 16 = fl).
Proof.
  intros Fu Ob Oa Ye. assert (Nw : s_now x < 2 ^ 64) by (clear -Now; lia).
  destruct (version_text _ _ _ _ _ _ _ _ _ _ Call Prog Write Size Now Open years Ye) as (y & m & dd & h & mi & s & VD & SE & TT).
  destruct (search_meaning _ _ _ _ _ _ _ _ _ _ Call Prog Write Size Nw Open NoSave Enum beyond fuel Fu) as (Ns & A & V & W & Se & Me).
  destruct (Se [] ltac:(constructor)) as (L & En & Ln & AL & VL & HL).
  destruct (ases_enumerated _ _ _ _ _ _ _ _ _ _ Call Prog Write Size Nw Open Names []) as (La & Ea & Lna & Sta & Pa & Ha).
  destruct (written_metadata _ _ _ _ _ _ _ _ _ Call Prog Write Size Nw) as (d' & O' & M1 & M2 & M3 & _).
  rewrite Open in O'. assert (d' = d) by congruence. subst d'. clear O'.
  assert (WL : forall n, In n L -> valid_network n /\ net_wf n).
  { intros n I1. rewrite Forall_forall in VL, W. split; [now apply VL|]. apply HL in I1 as [I1 _]. now apply W. }
  exists y, m, dd, h, mi, s.
  (* the ASes of the writer in the order of the enumerator *)
  assert (Back : exists As, La = map (fun a => mkAs 0 (the_number a) (Some (or_empty (the_name a)))) As /\ Forall (fun a => In a (ases (meaning os))) As).
  { clear -Ha. assert (G : forall l, (forall r, In r l -> In r La) -> exists As, l = map (fun a => mkAs 0 (the_number a) (Some (or_empty (the_name a)))) As /\ Forall (fun a => In a (ases (meaning os))) As).
    { induction l as [|r l IH]; intros I1; [exists []; auto|]. destruct IH as (As & -> & F); [intros; apply I1; now right|].
      destruct (proj1 (Ha r) (I1 r ltac:(now left))) as (a & Ia & -> & _). exists (a :: As). split; [reflexivity|constructor; auto]. }
    now apply G. }
  destruct Back as (As & -> & FAs).
  exists As, (map (fun a => as_block (mkAs 0 (the_number a) (Some (or_empty (the_name a))))) As), L, (map net_block L).
  split; [exact VD|]. split; [exact SE|]. split; [|split; [|split; [|split; [|split; [exact AL|split]]]]].
  - assert (Md : forall (k : outcome (option cstr)) t g, k = Ok (Some t) -> is_text t -> metadata k g = printed (match t with [] => [] | t => g t end)).
    { clear. intros k t g -> T. unfold metadata, py_text. cbn [bind]. rewrite (text_utf8 t T). reflexivity. }
    unfold dump. rewrite TT, (Md _ _ _ M1 Vendor), (Md _ _ _ M2 Description), (Md _ _ _ M3 License).
    change (iterate_all Ases 0 false) with (configured Ases false []). change (iterate_all Networks 0 false) with (configured Networks false []).
    rewrite (for_ases beyond fuel d _ as_block (map (fun a => mkAs 0 (the_number a) (Some (or_empty (the_name a)))) As) _ objects); [|apply (configured_state Ases false [])|exact Ea|clear -Lna Oa; lia|].
    2 : { intros a I1. destruct (Pa a I1) as (B & t & Et & U). exact (proj1 (dump_as_ok a t B Et U)). }
    rewrite (for_networks beyond fuel d _ net_block L _ objects); [|apply mode_networks|exact En|clear -Ln Ob; lia|].
    2 : { intros n I1. exact (proj1 (dump_network_ok n (proj1 (WL n I1)) (proj2 (WL n I1)))). }
    rewrite !flat_map_concat_map, map_map.
    set (b1 := concat (map _ As)). set (b2 := concat (map net_block L)). clearbody b1 b2. unfold dump_head. clear.
    unfold ends, then_, printed. cbn [bind fst snd]. f_equal. f_equal.
    destruct (vendor (meaning os)), (license (meaning os)), (description (meaning os)); cbn [app]; rewrite <- ?app_assoc; reflexivity.
  - clear -Sta. rewrite <- (map_id As). induction As as [|a As IH]; cbn [map] in *; [constructor|]. apply StronglySorted_inv in Sta as [Sta F]. constructor; auto.
    apply Forall_forall. intros b I1. rewrite map_id in I1. rewrite Forall_forall in F. exact (F _ (in_map _ _ _ I1)).
  - intros a. split; [rewrite Forall_forall in FAs; apply FAs|]. intros I1.
    pose proof (meaning_numbers_once os) as Once.
    assert (I2 : In (mkAs 0 (the_number a) (Some (or_empty (the_name a)))) (map (fun a => mkAs 0 (the_number a) (Some (or_empty (the_name a)))) As)).
    { apply Ha. exists a. split; [exact I1|]. split; [reflexivity|exact Logic.I]. }
    apply in_map_iff in I2 as (b & Eb & I2). assert (b = a); [|now subst].
    assert (Ib : In b (ases (meaning os))) by (rewrite Forall_forall in FAs; now apply FAs).
    assert (Q : the_number b = the_number a) by congruence. clear -Once I1 Ib Q.
    induction (ases (meaning os)) as [|c l IH]; [easy|]. cbn [map] in Once. apply NoDup_cons_iff in Once as [N1 N2].
    destruct I1 as [->|I1], Ib as [->|Ib]; auto.
    + exfalso. apply N1. rewrite <- Q. now apply in_map.
    + exfalso. apply N1. rewrite Q. now apply in_map.
  - apply forall2_map. intros a I1. rewrite Forall_forall in FAs, Names. specialize (FAs a I1).
    exact (proj2 (dump_as_ok (mkAs 0 (the_number a) (Some (or_empty (the_name a)))) _ (as_bound _ Call a FAs) eq_refl (utf8_or_empty _ (Names a FAs)))).
  - apply forall2_map. intros n I1. exact (proj2 (dump_network_ok n (proj1 (WL n I1)) (proj2 (WL n I1)))).
  - assert (Same : forall n, In n L <-> In n Ns). { intros n. rewrite HL. unfold wanted. cbn. tauto. }
    intros v c a fl Hv. rewrite <- (Me v c a fl Hv). unfold most_specific.
    split; intros (z & (H1 & H2 & H3) & H4); exists z; (split; [split; [now apply Same|split; [exact H2|]]|exact H4]); intros n I1; apply H3; now apply Same.
Qed.
End Db.
