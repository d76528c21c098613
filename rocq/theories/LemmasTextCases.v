(** Concrete strings and networks for the refutations about text. *)
From Coq Require Import String.
From Coq Require Import NArith ZArith List Bool Arith Lia ZifyBool ZifyNat ZifyN.
From Verif Require Import Base LemmasBase ModelAddress LemmasAddress ModelCountryCode ModelNetwork LemmasNetwork
  SpecNetwork LemmasSpecNetwork LemmasNetworkProps ModelText SpecText LemmasText LemmasTextAddr LemmasTextNet LemmasReverse.
Import ListNotations.
Open Scope N_scope.

Definition shown (n : outcome network) : option (list N) :=
  match n with
  | Ok n => match network_str ring0 n with Ok (_, s) => s | _ => None end
  | _ => None
  end.

Lemma decimal_chars s v : decimal s v -> s <> [] /\ Forall (fun c => 48 <= c < 58) s.
Proof.
  intros (ds & NE & F & -> & _). split; [destruct ds; [contradiction|discriminate]|].
  rewrite Forall_map. eapply Forall_impl; [|exact F]. cbn beta. intros; lia.
Qed.

Lemma prefix_refuted :
  (forall d, In d [txt "abc"; []; txt "-4294967296"; txt "4294967296"; txt " x"] ->
     shown (network_new_from_string (Some (txt "192.0.2.1/" ++ d))) = Some (txt "0.0.0.0/0")) /\
  (forall d, In d [txt "24foo"; txt " +24"; txt "24/8"; txt "4294967320"] ->
     shown (network_new_from_string (Some (txt "192.0.2.1/" ++ d))) = Some (txt "192.0.2.0/24")) /\
  (forall v, ~ decimal (txt "abc") v /\ ~ decimal [] v /\ ~ decimal (txt "24foo") v).
Proof.
  split; [|split].
  - intros d I. cbn [In] in I. repeat (destruct I as [<- | I]; [vm_compute; reflexivity|]). contradiction.
  - intros d I. cbn [In] in I. repeat (destruct I as [<- | I]; [vm_compute; reflexivity|]). contradiction.
  - intros v. split; [|split]; intros D; apply decimal_chars in D as [NE F].
    + change (txt "abc") with [97; 98; 99] in F. inversion F. lia.
    + contradiction.
    + rewrite Forall_forall in F. specialize (F 102). assert (I : In 102 (txt "24foo")) by (cbn; auto). apply F in I. lia.
Qed.

Lemma truncated_refuted : exists d, decimal d 24 /\
  shown (network_new_from_string (Some (txt "192.0.2.1/" ++ d))) = Some (txt "0.0.0.0/0").
Proof.
  exists (txt "00000000000000000000000000000000000000000000000000000024"). split; [|vm_compute; reflexivity].
  exists (repeat 0 54 ++ [2; 4]). split; [discriminate|]. split; [repeat constructor|]. split; reflexivity.
Qed.

Lemma mapped_refuted :
  network_new_from_string (Some (txt "::ffff:192.0.2.1")) = Err 1 /\
  network_new_from_string (Some (txt "::ffff:192.0.2.1/128")) = Err 1 /\
  shown (network_new_from_string (Some (txt "::ffff:192.0.2.1/24"))) = Some (txt "192.0.2.0/24").
Proof. split; [vm_compute; reflexivity|]. split; vm_compute; reflexivity. Qed.

Lemma new_valid a p n : is_addr a -> network_new a p = Ok n -> valid_network n.
Proof.
  intros W E. pose proof (network_new_spec a p W) as S0. destruct (p <=? low_bits (val a)).
  - destruct S0 as (m & Q & Wm & _). rewrite Q in E. assert (m = n) by congruence. subst. now apply valid_net_wf.
  - rewrite S0 in E. discriminate.
Qed.

Lemma suffix_refuted : exists n m suffix p, valid_network n /\ valid_network m /\
  network_new (ip4 3 2 1 0) 24 = Ok n /\ network_new (ip6 0x32100000000000000000000000000000) 12 = Ok m /\
  reverse_pointer n (Some suffix) = Ok p /\ reverse_pointer m (Some suffix) = Ok p /\
  p = txt "*.1.2.3.rbl.example.org.".
Proof.
  give (network_new (ip4 3 2 1 0) 24). give (network_new (ip6 0x32100000000000000000000000000000) 12).
  exists (txt "rbl.example.org."), (txt "*.1.2.3.rbl.example.org.").
  split; [eapply (new_valid (ip4 3 2 1 0) 24); [split; [reflexivity|repeat constructor]|vm_compute; reflexivity]|].
  split; [eapply (new_valid (ip6 0x32100000000000000000000000000000) 12); [split; [reflexivity|repeat constructor]|vm_compute; reflexivity]|].
  repeat (split; [vm_compute; reflexivity|]). reflexivity.
Qed.
