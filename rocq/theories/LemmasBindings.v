(** UTF-8, and what the bindings return for databases that were written. *)
From Coq Require Import String.
From Coq Require Import NArith ZArith List Bool Arith Lia ZifyBool ZifyNat ZifyN.
From Verif Require Import Base LemmasBase ModelAddress LemmasAddress ModelCountryCode ModelNetwork LemmasNetwork SpecNetwork
  LemmasSpecNetwork ModelNetworkList SpecNetworkList ModelStringPool ModelObjects ModelText SpecText ModelFile ModelDatabase ModelExport ModelBindings SpecCommand.
Import ListNotations.
Open Scope N_scope.

(** ** UTF-8 *)
Ltac decide_all := repeat match goal with
  | |- context [?a <? ?b] => first [replace (a <? b) with true by lia | replace (a <? b) with false by lia]
  | |- context [?a <=? ?b] => first [replace (a <=? b) with true by lia | replace (a <=? b) with false by lia]
  | |- context [?a =? ?b] => first [replace (a =? b) with true by lia | replace (a =? b) with false by lia]
  end.

Lemma two q r : r < 64 -> (q * 64 + r) / 64 = q /\ (q * 64 + r) mod 64 = r.
Proof.
  intros R. split; [rewrite N.div_add_l by discriminate; rewrite N.div_small by exact R; apply N.add_0_r|].
  rewrite N.add_comm, N.mod_add by discriminate. now apply N.mod_small.
Qed.

Lemma encoded2 x y : 2 <= x < 32 -> y < 64 -> encoded (x * 64 + y) = [192 + x; 128 + y].
Proof.
  intros X Y. unfold encoded. destruct (two x y Y) as [-> ->].
  replace (_ <? 128) with false by lia. replace (_ <? 2048) with true by lia. reflexivity.
Qed.
Lemma encoded3 x y z : x < 16 -> y < 64 -> z < 64 -> 2048 <= (x * 64 + y) * 64 + z ->
  encoded ((x * 64 + y) * 64 + z) = [224 + x; 128 + y; 128 + z].
Proof.
  intros X Y Z G. unfold encoded. destruct (two (x * 64 + y) z Z) as [E ->].
  change 4096 with (64 * 64). rewrite <- N.div_div, E by discriminate. destruct (two x y Y) as [-> ->].
  replace (_ <? 128) with false by lia. replace (_ <? 2048) with false by lia. replace (_ <? 65536) with true by lia. reflexivity.
Qed.
Lemma encoded4 x y z w : y < 64 -> z < 64 -> w < 64 -> 65536 <= ((x * 64 + y) * 64 + z) * 64 + w ->
  encoded (((x * 64 + y) * 64 + z) * 64 + w) = [240 + x; 128 + y; 128 + z; 128 + w].
Proof.
  intros Y Z W G. unfold encoded. destruct (two ((x * 64 + y) * 64 + z) w W) as [E ->].
  change 262144 with (64 * (64 * 64)). change 4096 with (64 * 64). rewrite <- !N.div_div, E by discriminate.
  destruct (two (x * 64 + y) z Z) as [-> ->]. destruct (two x y Y) as [-> ->].
  replace (_ <? 128) with false by lia. replace (_ <? 2048) with false by lia. replace (_ <? 65536) with false by lia. reflexivity.
Qed.

Lemma split64 c : exists q r, c = q * 64 + r /\ r < 64.
Proof. exists (c / 64), (c mod 64). pose proof (N.div_mod c 64 ltac:(discriminate)). pose proof (N.mod_lt c 64 ltac:(discriminate)). lia. Qed.

Lemma utf8_char c s : character c -> utf8 (encoded c ++ s) = utf8 s.
Proof.
  intros C. unfold character in C. destruct (N.ltb_spec c 128) as [A|A].
  - unfold encoded. replace (c <? 128) with true by lia. cbn [app utf8]. now replace (c <? 128) with true by lia.
  - destruct (split64 c) as (q & r & -> & R). destruct (N.ltb_spec (q * 64 + r) 2048) as [B|B].
    { assert (Q : 2 <= q < 32) by lia. clear A B C. rewrite encoded2 by auto. cbn [app utf8]. unfold cont. decide_all. reflexivity. }
    destruct (split64 q) as (x & y & -> & Y). destruct (N.ltb_spec ((x * 64 + y) * 64 + r) 65536) as [D|D].
    { assert (X : x < 16) by lia. rewrite encoded3 by auto. assert (G : (0 < x \/ 32 <= y) /\ (x <> 13 \/ y < 32)) by lia.
      clear A B C D. cbn [app utf8]. unfold cont.
      destruct (N.eqb_spec (224 + x) 237); destruct (N.ltb_spec 224 (224 + x)); decide_all; reflexivity. }
    destruct (split64 x) as (u & v & -> & V). rewrite encoded4 by auto.
    assert (G : (0 < u \/ 16 <= v) /\ (u < 4 \/ u = 4 /\ v < 16)) by lia. clear A B C D. cbn [app utf8]. unfold cont.
    destruct (N.ltb_spec 240 (240 + u)); destruct (N.ltb_spec (240 + u) 244); decide_all; reflexivity.
Qed.

Lemma text_utf8 s : is_text s -> utf8 s = true.
Proof.
  intros (cs & F & ->). induction F as [|c cs C _ IH]; [reflexivity|]. cbn [map concat]. now rewrite utf8_char.
Qed.

Lemma is_text_cons c s : character c -> is_text s -> is_text (encoded c ++ s).
Proof. intros C (cs & F & ->). exists (c :: cs). split; auto. Qed.

Lemma utf8_text n : forall s, (length s <= n)%nat -> utf8 s = true -> is_text s.
Proof.
  induction n as [|n IH]; intros s L U; [destruct s; [exists []; split; auto|cbn [length] in L; lia]|].
  destruct s as [|c s1]; [exists []; split; auto|]. cbn [length] in L. cbn [utf8] in U.
  destruct (N.ltb_spec c 128) as [A|A].
  { assert (E : encoded c = [c]) by (unfold encoded; replace (c <? 128) with true by lia; reflexivity).
    change (c :: s1) with ([c] ++ s1). rewrite <- E. apply is_text_cons; [unfold character; lia|]. apply IH; auto. lia. }
  destruct s1 as [|c1 s2]; [discriminate|]. cbn [length] in L. unfold cont in U.
  destruct ((194 <=? c) && (c <? 224)) eqn:R2.
  { apply andb_prop in U as [U1 U2].
    assert (B : exists x y, 2 <= x < 32 /\ y < 64 /\ c = 192 + x /\ c1 = 128 + y) by (exists (c - 192), (c1 - 128); lia).
    destruct B as (x & y & X & Y & -> & ->). change (192 + x :: 128 + y :: s2) with ([192 + x; 128 + y] ++ s2).
    rewrite <- encoded2 by auto. apply is_text_cons; [unfold character; lia|]. apply IH; auto. lia. }
  destruct s2 as [|c2 s3]; [discriminate|]. cbn [length] in L.
  destruct ((224 <=? c) && (c <? 240)) eqn:R3.
  { apply andb_prop in U as [U Us].
    assert (B : exists x y z, x < 16 /\ y < 64 /\ z < 64 /\ c = 224 + x /\ c1 = 128 + y /\ c2 = 128 + z) by (exists (c - 224), (c1 - 128), (c2 - 128); lia).
    destruct B as (x & y & z & X & Y & Z & -> & -> & ->).
    assert (G : (0 < x \/ 32 <= y) /\ (x <> 13 \/ y < 32)) by (clear -U X; lia). clear U R2 R3 A.
    change (224 + x :: 128 + y :: 128 + z :: s3) with ([224 + x; 128 + y; 128 + z] ++ s3).
    rewrite <- encoded3 by (auto; lia). apply is_text_cons; [unfold character; lia|]. apply IH; auto. lia. }
  destruct s3 as [|c3 s4]; [discriminate|]. cbn [length] in L.
  apply andb_prop in U as [U Us].
  assert (B : exists x y z w, x < 5 /\ y < 64 /\ z < 64 /\ w < 64 /\ c = 240 + x /\ c1 = 128 + y /\ c2 = 128 + z /\ c3 = 128 + w)
    by (exists (c - 240), (c1 - 128), (c2 - 128), (c3 - 128); lia).
  destruct B as (x & y & z & w & X & Y & Z & W & -> & -> & -> & ->).
  assert (G : (0 < x \/ 16 <= y) /\ (x < 4 \/ y < 16)) by (clear -U X; lia). clear U R2 R3 A.
  change (240 + x :: 128 + y :: 128 + z :: 128 + w :: s4) with ([240 + x; 128 + y; 128 + z; 128 + w] ++ s4).
  rewrite <- encoded4 by (auto; lia). apply is_text_cons; [unfold character; lia|]. apply IH; auto. lia.
Qed.

Lemma utf8_iff s : utf8 s = true <-> is_text s.
Proof. split; [now apply (utf8_text (length s))|apply text_utf8]. Qed.

Lemma ascii_utf8 s : Forall (fun c => c < 128) s -> utf8 s = true.
Proof. induction 1 as [|c s C _ IH]; cbn [utf8]; [reflexivity|]. now replace (c <? 128) with true by lia. Qed.
