(** C54 to C58: the importer *)
From Coq Require Import String.
From Coq Require Import NArith ZArith List Bool Lia ZifyBool ZifyNat ZifyN Sorted.
From Verif Require Import Base ModelCountryCode ModelStringPool SpecText LemmasStringPool ModelImport SpecImport
  LemmasImportRange LemmasImport LemmasImportTable LemmasImportBird LemmasImportProps.
Import ListNotations.
Open Scope N_scope.

(** ** C54: a delegation becomes the network with its addresses and its country *)
Theorem C54_ipv4_partial : forall py_int py_log2 py_addr is_global is_unspecified valid reg cc address number date status org a k,
  let n := mkP 32 a (32 - k) in
  Forall (plain BAR) ([reg; cc; txt "ipv4"; address; number; date; status] ++ org) -> (length org <= 1)%nat ->
  starts_with 50 reg = false -> starts_with HASH reg = false ->
  cc <> [] -> cc <> txt "*" -> (valid = [] \/ In cc valid) -> status = txt "assigned" \/ status = txt "allocated" ->
  py_int number = Some (Z.of_N (2 ^ k)) -> py_log2 (Z.of_N (2 ^ k)) = Some (Z.of_N k) -> k <= 25 ->
  py_addr address = Some (32, a) -> a mod 2 ^ k = 0 ->
  is_global n = true -> is_unspecified n = false ->
  parse_line py_int py_log2 py_addr is_global is_unspecified valid
    (joined BAR ([reg; cc; txt "ipv4"; address; number; date; status] ++ org)) = Row (n, cc) /\
  forall v, holds n v <-> a <= v < a + 2 ^ k.
Proof. exact line_ipv4. Qed.
Print Assumptions C54_ipv4_partial.
Theorem C54_ipv6 : forall py_int py_log2 py_addr is_global is_unspecified valid reg cc address number date status org a p,
  let n := mkP 128 (a - a mod 2 ^ (128 - p)) p in
  Forall (plain BAR) ([reg; cc; txt "ipv6"; address; number; date; status] ++ org) -> (length org <= 1)%nat ->
  starts_with 50 reg = false -> starts_with HASH reg = false ->
  cc <> [] -> cc <> txt "*" -> (valid = [] \/ In cc valid) -> status = txt "assigned" \/ status = txt "allocated" ->
  py_int number = Some (Z.of_N p) -> 10 <= p <= 128 -> py_addr address = Some (128, a) -> a < 2 ^ 128 ->
  is_global n = true -> is_unspecified n = false ->
  parse_line py_int py_log2 py_addr is_global is_unspecified valid
    (joined BAR ([reg; cc; txt "ipv6"; address; number; date; status] ++ org)) = Row (n, cc) /\
  net_wf n /\ holds n a.
Proof. exact line_ipv6. Qed.
Print Assumptions C54_ipv6.
(** Other numbers of addresses: no more of them than were delegated, and the first one is there. *)
Theorem C54_count_partial : forall py_int py_log2 py_addr is_global is_unspecified valid reg cc address number date status org a count n c,
  Forall (plain BAR) ([reg; cc; txt "ipv4"; address; number; date; status] ++ org) -> (length org <= 1)%nat ->
  py_int number = Some (Z.of_N count) -> py_log2 (Z.of_N count) = Some (Z.of_N (N.log2 count)) -> count <> 0 ->
  py_addr address = Some (32, a) -> a < 2 ^ 32 ->
  parse_line py_int py_log2 py_addr is_global is_unspecified valid
    (joined BAR ([reg; cc; txt "ipv4"; address; number; date; status] ++ org)) = Row (n, c) ->
  holds n a /\ size_of n <= count < 2 * size_of n.
Proof. exact line_count. Qed.
Print Assumptions C54_count_partial.
(** Any line: what is inserted is a global network that is not too large, with one of the valid countries. *)
Theorem C54_row : forall py_int py_log2 py_addr is_global is_unspecified valid line n cc,
  (forall s bits a, py_addr s = Some (bits, a) -> (bits = 32 \/ bits = 128) /\ a < 2 ^ bits) ->
  parse_line py_int py_log2 py_addr is_global is_unspecified valid line = Row (n, cc) ->
  net_wf n /\ is_global n = true /\ is_unspecified n = false /\
  (p_bits n = 32 -> 7 <= p_len n) /\ (p_bits n = 128 -> 10 <= p_len n) /\
  cc <> [] /\ cc <> txt "*" /\ (valid <> [] -> In cc valid).
Proof. exact line_row. Qed.
Print Assumptions C54_row.

Definition an_int (s : cstr) : option Z :=
  if existsb (fun c => negb (is_digit c)) s || (length s =? 0)%nat then None
  else Some (Z.of_N (fold_left (fun x c => 10 * x + (c - 48)) s 0)).
Definition a_log (z : Z) : option Z := if (0 <? z)%Z then Some (Z.log2 z) else None.
Definition an_addr (s : cstr) : option (N * N) :=
  if cstr_eqb s (txt "5.1.0.0") then Some (32, 83951616)
  else if cstr_eqb s (txt "5.1.1.0") then Some (32, 83951872)
  else if cstr_eqb s (txt "5.1.5.255") then Some (32, 83953151)
  else if cstr_eqb s (txt "2a00::") then Some (128, 55827575822966466661959896531774472192)
  else None.
Notation a_line := (parse_line an_int a_log an_addr (fun _ => true) (fun _ => false) [txt "DE"]).
Example C54_case :
  a_line (txt "ripencc|DE|ipv4|5.1.0.0|512|20120521|allocated|abc") = Row (mkP 32 83951616 23, txt "DE") /\
  a_line (txt "ripencc|DE|ipv6|2a00::|29|20120521|allocated") = Row (mkP 128 55827575822966466661959896531774472192 29, txt "DE") /\
  a_line (txt "ripencc|XX|ipv4|5.1.0.0|512|20120521|allocated") = Skipped /\
  a_line (txt "ripencc||ipv4|5.1.0.0|512|20120521|available") = Skipped.
Proof. repeat split; vm_compute; reflexivity. Qed.
(** 768 addresses are delegated, 256 of them are missing *)
Theorem C54_count_refuted : exists line a count n v,
  line = txt "ripencc|DE|ipv4|5.1.0.0|768|20120521|allocated" /\ an_addr (txt "5.1.0.0") = Some (32, a) /\ an_int (txt "768") = Some (Z.of_N count) /\
  a_line line = Row (n, txt "DE") /\ a <= v < a + count /\ ~ holds n v.
Proof.
  do 2 eexists. exists 768, (mkP 32 83951616 23), 83952128. split; [reflexivity|]. split; [vm_compute; reflexivity|].
  split; [vm_compute; reflexivity|]. split; [vm_compute; reflexivity|]. unfold holds, size_of. cbn [p_bits p_base p_len].
  change (2 ^ (32 - 23)) with 512. lia.
Qed.
Print Assumptions C54_count_refuted.
(** 512 addresses from 5.1.1.0, which is not a multiple: 5.1.0.0 is not part of the delegation *)
Theorem C54_start_refuted : exists line a count n v,
  line = txt "ripencc|DE|ipv4|5.1.1.0|512|20120521|allocated" /\ an_addr (txt "5.1.1.0") = Some (32, a) /\ an_int (txt "512") = Some (Z.of_N count) /\
  a_line line = Row (n, txt "DE") /\ ~ a <= v < a + count /\ holds n v.
Proof.
  do 2 eexists. exists 512, (mkP 32 83951616 23), 83951616. split; [reflexivity|]. split; [vm_compute; reflexivity|].
  split; [vm_compute; reflexivity|]. split; [vm_compute; reflexivity|]. unfold holds, size_of. cbn [p_bits p_base p_len].
  change (2 ^ (32 - 23)) with 512. lia.
Qed.
Print Assumptions C54_start_refuted.
(** A line can end the import *)
Theorem C54_raises_refuted : exists line, a_line line = Raised.
Proof. exists (txt "ripencc|DE|ipv4|5.1.0.0|0|20120521|allocated"). vm_compute. reflexivity. Qed.
Print Assumptions C54_raises_refuted.

(** ** C55: a range becomes the networks with exactly its addresses *)
Theorem C55_range_partial : forall py_addr space py_net s e bits first last,
  plain DASH s -> py_addr (rstrip space s) = Some (bits, first) -> py_addr (strip space e) = Some (bits, last) ->
  bits = 32 \/ bits = 128 -> first <= last -> last < 2 ^ bits ->
  exists l, inetnum py_addr space py_net (s ++ DASH :: e) = Row l /\
    Forall (fun n => p_bits n = bits /\ net_wf n) l /\
    (forall v, (exists n, In n l /\ holds n v) <-> first <= v <= last) /\
    StronglySorted (fun m n => forall v w, holds m v -> holds n w -> v < w) l /\
    (forall b, net_wf b -> p_bits b = bits -> (forall v, holds b v -> first <= v <= last) ->
       exists n, In n l /\ forall v, holds b v -> holds n v).
Proof. exact inetnum_range. Qed.
Print Assumptions C55_range_partial.
Theorem C55_network : forall py_addr space py_net s n,
  plain DASH s -> rstrip space s <> [] -> py_net (rstrip space s) = Some n -> net_wf n ->
  inetnum py_addr space py_net s = Row [n].
Proof. exact inetnum_network. Qed.
Print Assumptions C55_network.
(** LACNIC's networks with two or three octets *)
Theorem C55_short : forall py_addr space py_net s x y n,
  plain DASH s -> rstrip space s = x ++ 47 :: y -> plain 47 x -> plain 47 y -> py_net (x ++ 47 :: y) = None -> net_wf n ->
  (dots x = 1%nat /\ py_net (x ++ txt ".0.0/" ++ y) = Some n) \/ (dots x = 2%nat /\ py_net (x ++ txt ".0/" ++ y) = Some n) ->
  inetnum py_addr space py_net s = Row [n].
Proof. exact inetnum_short. Qed.
Print Assumptions C55_short.

Definition a_space (c : N) : bool := c =? 32.
Definition a_net (s : cstr) : option pnet :=
  if cstr_eqb s (txt "24.152.8.0/22") then Some (mkP 32 412616704 22) else None.
Example C55_case :
  inetnum an_addr a_space a_net (txt "5.1.1.0 - 5.1.5.255") = Row [mkP 32 83951872 24; mkP 32 83952128 23; mkP 32 83952640 23] /\
  inetnum an_addr a_space a_net (txt "24.152.8/22") = Row [mkP 32 412616704 22] /\ net_wf (mkP 32 412616704 22) /\
  summarize_address_range (32, 0) (32, 4294967295) = Row [mkP 32 0 0] /\
  inetnum an_addr a_space a_net (txt "5.1.1.0 - ") = Skipped.
Proof. repeat split; try (vm_compute; reflexivity); try (left; reflexivity); vm_compute; discriminate. Qed.
(** A range with its ends swapped, or an abbreviation without prefix, ends the import *)
Theorem C55_swapped_refuted : exists val, inetnum an_addr a_space a_net val = Raised /\
  exists a b, an_addr (txt "5.1.5.255") = Some a /\ an_addr (txt "5.1.1.0") = Some b /\ val = txt "5.1.5.255 - 5.1.1.0".
Proof. exists (txt "5.1.5.255 - 5.1.1.0"). split; [vm_compute; reflexivity|]. do 2 eexists. repeat split. Qed.
Print Assumptions C55_swapped_refuted.
Theorem C55_prefix_refuted : exists val, val = txt "24.152.8" /\ inetnum an_addr a_space a_net val = Raised.
Proof. exists (txt "24.152.8"). split; [reflexivity|vm_compute; reflexivity]. Qed.
Print Assumptions C55_prefix_refuted.

(** ** C56: networks are left out only if nothing is lost *)
Theorem C56_located_partial : forall t rir,
  keyed t -> keyed rir -> NoDup rir -> (forall r, In r t \/ In r rir -> net_wf (r_net r)) ->
  (forall r, In r rir -> r_country r <> None) ->
  forall bits v c, located (fun r => In r (copy_networks rir t)) bits v c <-> located (either t rir) bits v c.
Proof. exact networks_located. Qed.
Print Assumptions C56_located_partial.
Theorem C56_rows : forall t rir,
  keyed t -> keyed rir -> NoDup rir -> (forall r, In r t \/ In r rir -> net_wf (r_net r)) ->
  (forall r, In r t -> In r (copy_networks rir t)) /\ (forall r, In r (copy_networks rir t) -> either t rir r).
Proof. exact networks_rows. Qed.
Print Assumptions C56_rows.
(** Of the networks that are not the largest ones, none has the country of the network around it. *)
Theorem C56_no_repetition : forall t rir,
  keyed t -> keyed rir -> NoDup rir -> (forall r, In r t \/ In r rir -> net_wf (r_net r)) ->
  forall r p, In r (copy_networks rir t) -> ~ In r t ->
  (exists q, In q rir /\ p_bits (r_net q) = p_bits (r_net r) /\ p_len (r_net q) < p_len (r_net r)) ->
  around (fun q => In q (copy_networks rir t)) (r_net r) p ->
  r_country p = None \/ r_country p <> r_country r.
Proof. exact networks_more. Qed.
Print Assumptions C56_no_repetition.

Definition de := Some (txt "DE").
Definition fr := Some (txt "FR").
Definition rir1 := [mkRow (mkP 32 167772160 8) de; mkRow (mkP 32 167772160 16) de; mkRow (mkP 32 167837696 16) fr;
                    mkRow (mkP 32 167837696 24) fr; mkRow (mkP 32 167838208 24) de].
Definition table1 := [mkRow (mkP 32 167837952 24) None].
Example C56_case :
  copy_networks rir1 table1 = table1 ++ [mkRow (mkP 32 167772160 8) de; mkRow (mkP 32 167837696 16) fr; mkRow (mkP 32 167838208 24) de] /\
  keyed table1 /\ keyed rir1 /\ NoDup rir1 /\ (forall r, In r table1 \/ In r rir1 -> net_wf (r_net r)) /\
  (forall r, In r rir1 -> r_country r <> None).
Proof.
  split; [vm_compute; reflexivity|]. split; [|split; [|split; [|split]]].
  - intros r q R Q. cbn in R, Q. intuition (subst; reflexivity).
  - intros r q R Q E. cbn in R, Q. intuition (subst; first [reflexivity|vm_compute in E; discriminate]).
  - repeat (constructor; [cbn; intuition discriminate|]). constructor.
  - intros r R. cbn in R. intuition (subst; (split; [left; reflexivity|]); repeat split; vm_compute; congruence).
  - intros r R. cbn in R. intuition (subst; discriminate).
Qed.
(** The country of 10.1.0.1 is not known, but that of the network around it is used *)
Theorem C56_null_refuted : exists rir v,
  keyed rir /\ NoDup rir /\ (forall r, In r rir -> net_wf (r_net r)) /\
  located (either [] rir) 32 v None /\ located (fun r => In r (copy_networks rir [])) 32 v de /\
  ~ located (fun r => In r (copy_networks rir [])) 32 v None.
Proof.
  exists [mkRow (mkP 32 167772160 8) de; mkRow (mkP 32 167837696 16) None], 167837697.
  assert (C : copy_networks [mkRow (mkP 32 167772160 8) de; mkRow (mkP 32 167837696 16) None] [] = [mkRow (mkP 32 167772160 8) de])
    by (vm_compute; reflexivity).
  rewrite C. split; [|split; [|split; [|split; [|split]]]].
  - intros r q R Q E. cbn in R, Q. intuition (subst; first [reflexivity|vm_compute in E; discriminate]).
  - repeat (constructor; [cbn; intuition discriminate|]). constructor.
  - intros r R. cbn in R. intuition (subst; (split; [left; reflexivity|]); repeat split; vm_compute; congruence).
  - exists (mkRow (mkP 32 167837696 16) None). split; [|reflexivity]. split; [right; split; [right; left; reflexivity|intros q []]|].
    split; [reflexivity|]. split; [split; vm_compute; [discriminate|reflexivity]|].
    intros q [[]|[Q _]] _ _. cbn in Q. intuition (subst; vm_compute; discriminate).
  - exists (mkRow (mkP 32 167772160 8) de). split; [|reflexivity]. split; [left; reflexivity|].
    split; [reflexivity|]. split; [split; vm_compute; [discriminate|reflexivity]|].
    intros q [<-|[]] _ _. apply N.le_refl.
  - intros (r & ([<-|[]] & _) & H). discriminate H.
Qed.
Print Assumptions C56_null_refuted.

(** ** C57: the blocks of a file *)
Theorem C57_content : forall space decode lines,
  concat (iterate_over_blocks space decode lines) = content space decode lines /\
  Forall (fun b => b <> []) (iterate_over_blocks space decode lines).
Proof. exact blocks_content. Qed.
Print Assumptions C57_content.
Theorem C57_blank : forall space decode a b l, kind_of space decode l = Blank ->
  iterate_over_blocks space decode (a ++ l :: b) = iterate_over_blocks space decode a ++ iterate_over_blocks space decode b.
Proof. exact blocks_blank. Qed.
Print Assumptions C57_blank.
Theorem C57_one_block : forall space decode lines, (forall l, In l lines -> kind_of space decode l <> Blank) ->
  content space decode lines <> [] -> iterate_over_blocks space decode lines = [content space decode lines].
Proof. exact blocks_one. Qed.
Print Assumptions C57_one_block.
Theorem C57_comment : forall space decode a b l, kind_of space decode l = Ignored ->
  iterate_over_blocks space decode (a ++ l :: b) = iterate_over_blocks space decode (a ++ b).
Proof. exact blocks_comment. Qed.
Print Assumptions C57_comment.
Definition a_space2 (c : N) : bool := (c =? 32) || (c =? 10).
Definition nl (s : string) : list N := txt s ++ [10].
Example C57_case :
  iterate_over_blocks a_space2 (fun l => l)
    [nl "% RIPE"; nl ""; nl "inetnum: 5.1.0.0/16  # x"; nl "# a comment"; nl "  # another"; nl "country: DE"; nl ""; nl " "; nl "mntner: A"] =
    [[txt "inetnum: 5.1.0.0/16"; txt "country: DE"]; [txt "mntner: A"]] /\
  kind_of a_space2 (fun l => l) (nl " ") = Blank /\ kind_of a_space2 (fun l => l) (nl "  # another") = Ignored.
Proof. repeat split; vm_compute; reflexivity. Qed.

(** ** C58: what Bird sends is delivered line by line, however it is cut into pieces *)
Theorem C58_answer_partial : forall chunks lines outs fin r rest,
  Forall (fun l => l <> [] /\ ~ In NEWLINE l) lines -> Forall2 gives lines outs ->
  ~ In NEWLINE fin -> coded fin 0 r ->
  concat chunks = answer (lines ++ [fin]) ++ rest ->
  bird_cmd [] chunks = (concat outs, true).
Proof. exact bird_answer. Qed.
Print Assumptions C58_answer_partial.
(** While the answer is not complete, all lines received so far have been delivered. *)
Theorem C58_waiting : forall chunks lines outs part,
  Forall (fun l => l <> [] /\ ~ In NEWLINE l) lines -> Forall2 gives lines outs -> ~ In NEWLINE part ->
  concat chunks = answer lines ++ part ->
  bird_cmd [] chunks = (concat outs, false).
Proof. exact bird_waiting. Qed.
Print Assumptions C58_waiting.
(** After an empty line nothing is delivered any more, whatever is sent. *)
Theorem C58_empty_line : forall chunks lines outs rest,
  Forall (fun l => l <> [] /\ ~ In NEWLINE l) lines -> Forall2 gives lines outs ->
  concat chunks = answer (lines ++ [[]]) ++ rest ->
  bird_cmd [] chunks = (concat outs, false).
Proof. exact bird_empty. Qed.
Print Assumptions C58_empty_line.
Lemma zero_code : forall r, coded (txt "0000 " ++ r) 0 r.
Proof. intro r. exists 48, 48, 48, 48, 32. unfold digit. repeat split; lia. Qed.
Theorem C58_empty_line_refuted : exists lines fin r chunks,
  coded fin 0 r /\ concat chunks = answer (lines ++ [fin]) /\ ~ In NEWLINE (concat (lines ++ [fin])) /\
  In (txt "second") lines /\ bird_cmd [] chunks = ([nl "first"], false).
Proof.
  exists [txt "first"; []; txt "second"], (txt "0000 "), [], [nl "first" ++ nl "" ++ nl "second" ++ nl "0000 "].
  split; [exact (zero_code []) | split; [reflexivity|split; [|split; [right; right; left; reflexivity|vm_compute; reflexivity]]]].
  vm_compute. intuition discriminate.
Qed.
Print Assumptions C58_empty_line_refuted.
Example C58_case :
  bird_cmd [] [txt "0001 BIRD 2.0 ready."; [10] ++ txt "1007-5.1.0.0/16 [AS3320i]"; nl "" ++ nl " \tvia" ++ txt "00"; nl "00 "] =
    ([nl "5.1.0.0/16 [AS3320i]"; nl " \tvia"], true) /\
  gives (txt "0001 BIRD 2.0 ready.") [] /\ gives (txt "1007-5.1.0.0/16 [AS3320i]") [nl "5.1.0.0/16 [AS3320i]"] /\
  gives (txt " \tvia") [nl " \tvia"] /\ coded (txt "0000 ") 0 [].
Proof.
  split; [vm_compute; reflexivity|]. split; [|split; [|split; [|exact (zero_code [])]]].
  - eapply gives_hello. exists 48, 48, 48, 49, 32. unfold digit. split; [reflexivity|]. repeat split; lia.
  - eapply (gives_rest _ 1007 (txt "5.1.0.0/16 [AS3320i]")); [|lia|lia]. exists 49, 48, 48, 55, 45. unfold digit.
    split; [reflexivity|]. repeat split; lia.
  - apply gives_line. intros code rest (a & b & c & d & x & E & A & _). unfold digit in A. cbn in E. inversion E. subst. lia.
Qed.
