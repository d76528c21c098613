(** C49, C53: exporting a database. *)
From Coq Require Import String.
From Coq Require Import NArith ZArith List Bool Arith Lia.
From Verif Require Import Base ModelAddress ModelCountryCode ModelNetwork ModelNetworkList ModelTree ModelStringPool ModelObjects
  ModelFile ModelWriter ModelDatabase ModelEnum SpecNetwork SpecObjects SpecNetworkList SpecTree SpecEnum LemmasTreeProps
  LemmasDbProps PropsTree PropsDatabase PropsLookup PropsEnum ModelDownload ModelText SpecText LemmasTextCases LemmasSpecNetwork LemmasNetwork
  ModelExport SpecExport LemmasExport LemmasExportText SpecWriter.
Import ListNotations.
Open Scope N_scope.
Local Opaque cleanup.

(** ** C49 *)
(** Whatever the search returns: there is one output for each key that was requested and
    each gets the networks that belong to it, in order, and nothing else. *)
Theorem C49_outputs : forall countries asns networks, Forall valid_network networks ->
  NoDup (map fst (export_networks countries asns networks)) /\
  (forall k, requested countries asns k <-> exists l, In (k, l) (export_networks countries asns networks)) /\
  forall k l, In (k, l) (export_networks countries asns networks) -> those (belongs k) networks l.
Proof.
  exact (fun countries asns networks V =>
    export_outputs countries asns networks (Forall_impl _ (fun n H => w_cc n (proj1 (valid_net_wf n) H)) V)).
Qed.
Print Assumptions C49_outputs.

(** The outputs for countries and ASes: an address of the family is in the output exactly if the
    smallest network that contains it belongs to the output. Partial: for sets of networks
    as in [ordinary] (see C34), and without the outputs for the special codes. *)
Theorem C49_ordinary_partial : forall ctz0 held key1 key2 os w x w' f d,
  Forall call_ok os ->
  program ctz0 held key1 key2 os = Ok w ->
  write_to ctz0 held key1 key2 w x = Ok (0%Z, w', f) ->
  N.of_nat (length f) < 2 ^ 32 -> s_now x < 2 ^ 64 -> db_open f = Ok d -> Forall no_save os ->
  forall beyond old countries asns fam, request_ok countries asns -> ordinary (given os) ->
  exists ws f0, (forall fuel, (f0 <= fuel)%nat -> exports (next_network beyond d fuel old) fam countries asns ws) /\
    forall k, requested countries asns k -> ordinary_key k -> exists l, In (k, l) ws /\
      (forall v at_, v < 2 ^ 128 ->
      (exists z, In z l /\ member z v /\ attrs z = at_) <->
      (exists y, most_specific (given os) v y /\ n_family y = fam /\ belongs k (as_read y) /\ attrs (as_read y) = at_)).
Proof. exact export_ordinary. Qed.
Print Assumptions C49_ordinary_partial.

(** All outputs. What is missing for the special codes: only networks whose country or AS was
    requested as well are exported. *)
Theorem C49_export_partial : forall ctz0 held key1 key2 os w x w' f d,
  Forall call_ok os ->
  program ctz0 held key1 key2 os = Ok w ->
  write_to ctz0 held key1 key2 w x = Ok (0%Z, w', f) ->
  N.of_nat (length f) < 2 ^ 32 -> s_now x < 2 ^ 64 -> db_open f = Ok d -> Forall no_save os ->
  forall beyond old countries asns fam, request_ok countries asns -> ordinary (given os) ->
  exists ws f0, (forall fuel, (f0 <= fuel)%nat -> exports (next_network beyond d fuel old) fam countries asns ws) /\
    NoDup (map fst ws) /\ (forall k, requested countries asns k <-> exists l, In (k, l) ws) /\
    forall k l, In (k, l) ws -> Forall (fun n => valid_network n /\ n_family n = fam) l /\ one_after_another l /\
      forall v at_, v < 2 ^ 128 ->
      (exists z, In z l /\ member z v /\ attrs z = at_) <->
      (exists y, most_specific (given os) v y /\ n_family y = fam /\ selected countries asns (as_read y) /\
         belongs k (as_read y) /\ attrs (as_read y) = at_).
Proof. exact export_db. Qed.
Print Assumptions C49_export_partial.

(** Cases: the outputs as text. *)
Definition outputs (d : db) (fam : family) (countries : list cstr) (asns : list N) : option writers :=
  match search_networks (country_codes countries) asns (match fam with AF_INET => 2 | AF_INET6 => 10 end)%Z with
  | Ok e =>
      match PropsEnum.run (next_network (fun _ => None) d 2000 None) e 40 with
      | (L, Some 0%Z) => Some (export_networks countries asns L)
      | _ => None
      end
  | _ => None
  end.
Lemma outputs_exports d fam countries asns ws : outputs d fam countries asns = Some ws ->
  exports (next_network (fun _ => None) d 2000 None) fam countries asns ws.
Proof.
  unfold outputs, exports. destruct (search_networks _ _ _) as [e| | |]; try discriminate.
  destruct (PropsEnum.run _ e 40) as [L [r|]] eqn:E; [|discriminate]. destruct r; try discriminate. intros Q. exists e, L. split; [reflexivity|].
  split; [|congruence]. exact (run_enumerates _ _ _ _ E).
Qed.
Definition shows (o : option writers) (expected : list (wkey * cstr)) : bool :=
  match o with
  | Some ws => Nat.eqb (length ws) (length expected) &&
      forallb (fun p => wkey_eqb (fst (fst p)) (fst (snd p)) && cstr_eqb (list_file (snd (fst p))) (snd (snd p))) (combine ws expected)
  | None => false
  end.

(** France: 10.1.0.0/16 and 192.168.0.1/32, anycast; AS 64496: the rest of 10.0.0.0/8 *)
Definition DE : cstr := txt "DE".
Definition FR : cstr := txt "FR".
Definition A1 : cstr := txt "A1".
Definition A3 : cstr := txt "A3".
Ltac codes := split; [repeat (apply Forall_cons; [first [left; reflexivity|right; eexists; constructor]|]); apply Forall_nil|repeat constructor].
Example C49_case : Forall call_ok calls1 /\ Forall no_save calls1 /\ request_ok [FR; A3; FR] [64496] /\
  exists w w' f d, program 8 (fun _ => true) None None calls1 = Ok w /\
    write_to 8 (fun _ => true) None None w save0 = Ok (0%Z, w', f) /\
    N.of_nat (length f) < 2 ^ 32 /\ s_now save0 < 2 ^ 64 /\ db_open f = Ok d /\
    (shows (outputs d AF_INET [FR; A3; FR] [64496])
      [(Code FR, txt "10.1.0.0/16" ++ [10] ++ txt "192.168.0.1/32" ++ [10]);
       (Code A3, txt "10.1.0.0/16" ++ [10] ++ txt "192.168.0.1/32" ++ [10]);
       (Asn 64496, txt "10.0.0.0/16" ++ [10] ++ txt "10.2.0.0/15" ++ [10] ++ txt "10.4.0.0/14" ++ [10] ++ txt "10.8.0.0/13" ++ [10] ++
          txt "10.16.0.0/12" ++ [10] ++ txt "10.32.0.0/11" ++ [10] ++ txt "10.64.0.0/10" ++ [10] ++ txt "10.128.0.0/9" ++ [10])] &&
     shows (outputs d AF_INET6 [FR] []) [(Code FR, txt "2001:db8::/32" ++ [10])])%bool = true.
Proof.
  split; [calls|]. split; [repeat constructor|]. split; [codes|].
  apply a_case. vm_compute. reflexivity.
Qed.

(** C49 is false for the special codes: 10.0.0.0/8 is an anonymous proxy in France. Asked for A1
    and Germany, or for A1 alone, the exporter does not write it to the output of A1. *)
Definition proxy : network := net_of_addr (ip4 10 0 0 0) 8 ((70, 82), 64497, 1).
Definition proxies : list call := [AddNet proxy; AddNet (net_of_addr (ip4 192 0 2 0) 24 at_de)].
Theorem C49_special_refuted : exists os x v y, Forall call_ok os /\ Forall no_save os /\ ordinary (given os) /\
  most_specific (given os) v y /\ n_family y = AF_INET /\ belongs (Code A1) (as_read y) /\
  request_ok [DE; A1] [] /\ request_ok [A1] [] /\
  exists w w' f d, program 8 (fun _ => true) None None os = Ok w /\
    write_to 8 (fun _ => true) None None w x = Ok (0%Z, w', f) /\
    N.of_nat (length f) < 2 ^ 32 /\ s_now x < 2 ^ 64 /\ db_open f = Ok d /\
    (exists ws, exports (next_network (fun _ => None) d 2000 None) AF_INET [DE; A1] [] ws /\ In (Code A1, []) ws) /\
    (exists ws, exports (next_network (fun _ => None) d 2000 None) AF_INET [A1] [] ws /\ In (Code A1, []) ws).
Proof.
  exists proxies, save0, (num (ip4 10 0 0 1)), proxy.
  assert (E : given proxies = [net_of_addr (ip4 192 0 2 0) 24 at_de; proxy]) by (vm_compute; reflexivity).
  split; [calls|]. split; [repeat constructor|]. split.
  { apply LemmasEnumDb.ordinary_check. vm_compute. reflexivity. }
  split.
  { rewrite E. split; [right; left; reflexivity|]. split; [split; vm_compute; discriminate|].
    intros y [<-|[<-|[]]] [H _]; [exfalso; revert H; vm_compute; auto|apply le_n]. }
  split; [reflexivity|]. split.
  { right. exists 1. split; [constructor|]. vm_compute. discriminate. }
  split; [codes|].
  split; [codes|].
  pose (empty := fun o : option writers => match o with Some ws => existsb (fun w => wkey_eqb (fst w) (Code A1) && match snd w with [] => true | _ => false end) ws | None => false end).
  destruct (a_case 8 (fun _ => true) None None proxies save0
    (fun d => empty (outputs d AF_INET [DE; A1] []) && empty (outputs d AF_INET [A1] []))%bool) as (w & w' & f & d & H1 & H2 & H3 & H4 & H5 & H6);
    [vm_compute; reflexivity|].
  exists w, w', f, d. split; [exact H1|]. split; [exact H2|]. split; [exact H3|]. split; [exact H4|]. split; [exact H5|].
  assert (X : forall fam c a, empty (outputs d fam c a) = true ->
    exists ws, exports (next_network (fun _ => None) d 2000 None) fam c a ws /\ In (Code A1, []) ws).
  { intros fam c a. clear. unfold empty. destruct (outputs d fam c a) as [ws|] eqn:O; [|discriminate]. intros X. exists ws.
    split; [now apply outputs_exports|]. apply existsb_exists in X as ([k l] & I1 & X). apply andb_true_iff in X as [X1 X2].
    cbn [fst snd] in *. apply wkey_eqb_eq in X1. subst k. destruct l; [exact I1|discriminate]. }
  apply andb_true_iff in H6 as [H6 H7]. split; apply X; assumption.
Qed.
Print Assumptions C49_special_refuted.

(** ** C53 *)
(** One line for each network; the library reads it as the network. *)
Theorem C53_list : forall ns, Forall valid_network ns -> exists texts,
  Forall word texts /\ Forall2 reads texts ns /\ list_file ns = flat_map (fun s => s ++ [10]) texts.
Proof. exact list_file_text. Qed.
Print Assumptions C53_list.

Theorem C53_nftables : forall t ns, Forall valid_network ns -> exists texts,
  Forall word texts /\ Forall2 reads texts ns /\
  nft_file t ns = txt "define " ++ t ++ txt " = {" ++ [10] ++ flat_map (fun s => 9 :: s ++ [44; 10]) texts ++ [125; 10].
Proof. exact nft_file_text. Qed.
Print Assumptions C53_nftables.

(** The first header is replaced by one with the final size, the lines behind it
    stay. Partial: for sizes of at most eight digits. *)
Theorem C53_ipset_partial : forall t f h ns, Forall valid_network ns -> h < 10 ^ 8 -> exists texts number spaces,
  Forall word texts /\ Forall2 reads texts ns /\ decimal number h /\
  ipset_file t f h ns = txt "create " ++ t ++ txt " hash:net family inet" ++ (match f with AF_INET6 => [54] | AF_INET => [] end) ++
    txt " hashsize " ++ repeat 32 spaces ++ number ++ txt " maxelem 1048576 -exist" ++ [10] ++ txt "flush " ++ t ++ [10] ++
    flat_map (fun s => txt "add " ++ t ++ [32] ++ s ++ [10]) texts.
Proof. exact ipset_file_text. Qed.
Print Assumptions C53_ipset_partial.

Definition two : list network := [net_of_addr (ip4 10 0 0 0) 8 at_de; net_of_addr (ip4 192 0 2 0) 24 at_de].
Example C53_case : Forall valid_network two /\
  list_file two = txt "10.0.0.0/8" ++ [10] ++ txt "192.0.2.0/24" ++ [10] /\
  nft_file (tag DE AF_INET) two = txt "define DEv4 = {" ++ [10; 9] ++ txt "10.0.0.0/8," ++ [10; 9] ++ txt "192.0.2.0/24," ++ [10] ++ txt "}" ++ [10] /\
  ipset_file (tag DE AF_INET) AF_INET 128 two =
    txt "create DEv4 hash:net family inet hashsize      128 maxelem 1048576 -exist" ++ [10] ++ txt "flush DEv4" ++ [10] ++
    txt "add DEv4 10.0.0.0/8" ++ [10] ++ txt "add DEv4 192.0.2.0/24" ++ [10].
Proof. split; [repeat (apply Forall_cons; [netok|]); constructor|]. vm_compute. auto. Qed.

(** With more digits the header overwrites the start of the first line: for any tag
    and any networks, as many characters as there are digits too much. *)
Theorem C53_ipset_refuted : (forall t f h ns,
    ipset_file t f h ns = ipset_header t f h ++ skipn (length (dec h) - 8) (flat_map (ipset_line t) ns)) /\
  exists rest, ipset_file (tag DE AF_INET) AF_INET (2 ^ 27) two =
    txt "create DEv4 hash:net family inet hashsize 134217728 maxelem 1048576 -exist" ++ [10] ++ txt "flush DEv4" ++ [10] ++
    txt "dd DEv4 10.0.0.0/8" ++ rest.
Proof. split; [exact ipset_overwritten|]. eexists. vm_compute. reflexivity. Qed.
Print Assumptions C53_ipset_refuted.
