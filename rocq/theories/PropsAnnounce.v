(** C70: announcements *)
From Coq Require Import String.
From Coq Require Import NArith ZArith List Bool Lia ZifyBool ZifyNat ZifyN.
From Verif Require Import Base ModelCountryCode ModelStringPool SpecText LemmasStringPool ModelImport SpecImport
  LemmasImportRange LemmasImportTable ModelCompile ModelAnnounce SpecAnnounce LemmasAnnounce.
Import ListNotations.
Open Scope N_scope.

(** ** C70: the table has the newest origin of every network that belongs in the routing table *)
(** Missing: lines with a blank in front of a second one, peers whose name starts with AS. *)
Theorem C70_update_partial : forall decode inet bigint now bird server changes t,
  NoDup (map an_net t) -> (forall r, In r t -> net_wf (an_net r)) -> (forall s n, inet s = Some n -> net_wf n) ->
  starts_with 47 server = true -> all_changes decode inet bigint bird changes ->
  exists t', update_announcements decode inet bigint now bird server t = Some t' /\ NoDup (map an_net t') /\
    forall r, In r t' <-> changed now t changes r /\ kept now r.
Proof. exact updated. Qed.
Print Assumptions C70_update_partial.
Theorem C70_purge : forall now t r, net_wf (an_net r) -> (In r (purge now t) <-> In r t /\ kept now r).
Proof. exact purge_kept. Qed.
Print Assumptions C70_purge.
Theorem C70_route : forall l x, tells l x -> route l = x.
Proof. exact route_tells. Qed.
Print Assumptions C70_route.
Theorem C70_path : forall l a, as_path l = Some a <-> path l a.
Proof. exact path_iff. Qed.
Print Assumptions C70_path.

(** A routing table with two networks, one of them aggregated; one row is replaced, one is
    too old, one stays *)
Definition nl : list N := [NEWLINE].
Definition inet70 (s : cstr) : option pnet :=
  if cstr_eqb s (txt "1.0.0.0/24") then Some (quad 1 0 0 0 24)
  else if cstr_eqb s (txt "1.1.0.0/16") then Some (quad 1 1 0 0 16)
  else if cstr_eqb s (txt "10.1.0.0/16") then Some (quad 10 1 0 0 16)
  else None.
Definition bigint70 (s : cstr) : option Z :=
  if cstr_eqb s (txt "13335") then Some 13335%Z else if cstr_eqb s (txt "1299") then Some 1299%Z else None.
Definition line1 : list N := txt " 1.0.0.0/24           unicast [peer1 2024-01-01] * (100) [AS13335i]" ++ nl.
Definition line2 : list N := txt " 1.1.0.0/16           unicast [peer1 2024-01-01] * (100) [i]" ++ nl.
Definition line3 : list N := txt " 10.1.0.0/16          unicast [peer1 2024-01-01] * (100) [AS1299?]" ++ nl.
Definition bird70 (command : cstr) : list (list N) :=
  if cstr_eqb command (txt "show route") then [txt "Table master4:" ++ nl; line1; line2; line3]
  else if cstr_eqb command (txt "show route 1.1.0.0/16 all") then
    [txt " BGP.origin: IGP" ++ nl; [9] ++ txt "BGP.as_path: 3356 1299 {64512}" ++ nl; [9] ++ txt "BGP.as_path: 1 2 {3}" ++ nl]
  else [].
Definition day : Z := 86400 * 1000000.
Definition old70 : list announcement :=
  [mkA (quad 1 0 0 0 24) 1 (90 * day); mkA (quad 2 0 0 0 16) 2 (87 * day); mkA (quad 3 0 0 0 16) 3 (86 * day)].
Ltac tells_line := first [reflexivity | apply blank_check; reflexivity | apply word_check; reflexivity | apply details_check; reflexivity
  | apply in_line_check; reflexivity | discriminate | right; reflexivity].
Lemma line1_tells : tells line1 (Some (txt "1.0.0.0/24", Some (txt "13335"))).
Proof. apply (tells_as _ 32 (txt "1.0.0.0/24") (txt "           ") (txt "unicast [peer1 2024-01-01] * (100) ") (txt "13335") 105 nl); tells_line. Qed.
Lemma line2_tells : tells line2 (Some (txt "1.1.0.0/16", None)).
Proof. apply (tells_none _ 32 (txt "1.1.0.0/16") (txt "           ") (txt "unicast [peer1 2024-01-01] * (100) ") 105 nl); tells_line. Qed.
Lemma line3_tells : tells line3 (Some (txt "10.1.0.0/16", Some (txt "1299"))).
Proof. apply (tells_as _ 32 (txt "10.1.0.0/16") (txt "          ") (txt "unicast [peer1 2024-01-01] * (100) ") (txt "1299") 63 nl); tells_line. Qed.
Lemma table_tells : tells (txt "Table master4:" ++ nl) None.
Proof. apply tells_other. left. intros w l' E [_ B]. cbn [txt app] in E. injection E as <- _. apply Forall_cons_iff in B as [B _]. lia. Qed.
Definition changes70 : list (pnet * Z) := [(quad 1 0 0 0 24, 13335%Z); (quad 10 1 0 0 16, 1299%Z); (quad 1 1 0 0 16, 1299%Z)].
Lemma changes_are : all_changes (fun s => Some s) inet70 bigint70 bird70 changes70.
Proof.
  exists [[]; [(quad 1 0 0 0 24, 13335%Z)]; []; [(quad 10 1 0 0 16, 1299%Z)]], [[]; []; [txt "1.1.0.0/16"]; []], [[(quad 1 1 0 0 16, 1299%Z)]].
  split; [|split; [reflexivity|split; [|reflexivity]]].
  - repeat apply Forall2_cons; [| | | |apply Forall2_nil]; cbn [fst snd].
    + apply reads_other; [exact table_tells|discriminate].
    + eapply reads_route; [exact line1_tells|discriminate|reflexivity..].
    + eapply reads_aggregate; [exact line2_tells|now left|reflexivity].
    + eapply reads_route; [exact line3_tells|discriminate|reflexivity..].
  - apply Forall2_cons; [|apply Forall2_nil]. apply (looks_up_found _ _ _ _ (txt "1299") (quad 1 1 0 0 16) 1299%Z); [|reflexivity|reflexivity].
    exists [txt " BGP.origin: IGP" ++ nl]. eexists _, _. split; [reflexivity|]. split.
    + apply C70_path. reflexivity.
    + intros k b [<-|[]] P. apply C70_path in P. discriminate.
Qed.
Example C70_case :
  all_changes (fun s => Some s) inet70 bigint70 bird70 changes70 /\ NoDup (map an_net old70) /\
  update_announcements (fun s => Some s) inet70 bigint70 (100 * day) bird70 (txt "/run/bird.ctl") old70 =
    Some [mkA (quad 1 0 0 0 24) 13335 (100 * day); mkA (quad 2 0 0 0 16) 2 (87 * day); mkA (quad 1 1 0 0 16) 1299 (100 * day)].
Proof.
  split; [exact changes_are|]. split; [|vm_compute; reflexivity].
  repeat constructor; vm_compute; intuition discriminate.
Qed.
(** A network larger than what is reserved stays, and so do networks for documentation *)
Theorem C70_private_refuted : exists now r v, net_wf (an_net r) /\ In r (purge now [r]) /\ holds (an_net r) v /\ ip 10 0 0 0 <= v <= ip 10 255 255 255.
Proof.
  exists 0%Z, (mkA (quad 8 0 0 0 6) 3356 0), (ip 10 0 0 1). split; [wf_quad|]. split; [vm_compute; auto|].
  split; [split; vm_compute; congruence|split; vm_compute; discriminate].
Qed.
Print Assumptions C70_private_refuted.
Theorem C70_documentation_refuted : exists now r, net_wf (an_net r) /\ In r (purge now [r]) /\ an_net r = mkP 128 (0x20010db8 * 2 ^ 96) 32.
Proof.
  exists 0%Z, (mkA (mkP 128 (0x20010db8 * 2 ^ 96) 32) 3356 0). split; [wf_v6|]. split; [vm_compute; auto|reflexivity].
Qed.
Print Assumptions C70_documentation_refuted.
(** Bird lists another route to the network of the line before without the network: the import fails *)
Theorem C70_alternative_refuted : exists lines, forall decode inet bigint now server t,
  starts_with 47 server = true -> inet (txt " ") = None -> decode (txt " ") = Some (txt " ") ->
  decode (txt "1.0.0.0/24") = Some (txt "1.0.0.0/24") ->
  lines = [line1; txt "                      unicast [peer2 2024-01-01] (100) [AS13335i]" ++ nl] /\
  update_announcements decode inet bigint now (fun _ => lines) server t = None.
Proof.
  exists [line1; txt "                      unicast [peer2 2024-01-01] (100) [AS13335i]" ++ nl].
  intros decode inet bigint now server t Sv Hi Hd Hn. split; [reflexivity|]. unfold update_announcements. rewrite Sv. unfold from_bird.
  cbn [routes]. rewrite (route_tells _ _ line1_tells), Hn. 
  replace (route (txt "                      unicast [peer2 2024-01-01] (100) [AS13335i]" ++ nl)) with (Some (txt " ", Some (txt "13335")))
    by (vm_compute; reflexivity).
  rewrite Hd. cbv match beta delta [announce]. rewrite Hi. change (txt "13335") with (49 :: txt "3335").
  cbv match. destruct (decode (49 :: txt "3335")) as [a|]; [|reflexivity].
  destruct (inet (txt "1.0.0.0/24")); [|reflexivity]. destruct (bigint a); reflexivity.
Qed.
Print Assumptions C70_alternative_refuted.
(** The name of a peer is taken for the AS *)
Theorem C70_peer_refuted : exists l, l = txt " 1.0.0.0/24 unicast [AS1299 12:00] * (100) [AS13335i]" ++ nl /\
  route l = Some (txt "1.0.0.0/24", Some (txt "1299 12:00] * (100) [AS13335")).
Proof. eexists. split; [reflexivity|vm_compute; reflexivity]. Qed.
Print Assumptions C70_peer_refuted.
