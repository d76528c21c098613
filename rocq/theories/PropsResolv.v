(** C41, C52: the DNS reply with the time of the latest version. *)
From Coq Require Import String.
From Coq Require Import NArith ZArith List Bool Arith Lia.
From Verif Require Import Base ModelResolv SpecText SpecResolv LemmasResolv LemmasResolvDate LemmasResolvReply.
Import ListNotations.
Open Scope N_scope.

(** C41. For every content of the buffer and every reply that does not fill the
    buffer, the parser returns without an access outside of the buffer. This
    holds for every dn_expand that returns a length inside the message, and the
    one of glibc does. Missing: replies of exactly 512 octets. *)
Theorem C41_inside_partial : forall expand r len answer,
  (forall buf e p, (e <= length buf)%nat ->
     match expand buf e p with Ok n => 1 <= n /\ p + n <= e | Err _ => True | _ => False end%nat) ->
  length answer = 512%nat -> len <> 512%Z ->
  exists v t, discover expand r len answer = Ok (v, t).
Proof. exact discover_safe. Qed.
Print Assumptions C41_inside_partial.

Theorem C41_dn_expand : forall buf e p, (e <= length buf)%nat ->
  match dn_expand buf e p with Ok n => 1 <= n /\ p + n <= e | Err _ => True | _ => False end%nat.
Proof. exact dn_expand_expands. Qed.
Print Assumptions C41_dn_expand.

(** The result depends on nothing but the octets of the reply. *)
Theorem C41_reply_only : forall r len answer answer',
  length answer = 512%nat -> length answer' = 512%nat ->
  firstn (Z.to_nat len) answer = firstn (Z.to_nat len) answer' ->
  discover dn_expand r len answer = discover dn_expand r len answer'.
Proof. exact (fun r len a a' => discover_reply dn_expand r len a a' dn_expand_expands dn_expand_reads). Qed.
Print Assumptions C41_reply_only.

(** With 512 octets: the only access outside is the NUL written behind a string
    that ends with the message. *)
Theorem C41_only_the_nul : forall r len answer, length answer = 512%nat ->
  discover dn_expand r len answer = UB <->
  r = 0%Z /\ len = 512%Z /\ exists p n, find_txt dn_expand answer 512 = Ok (p, n) /\ (p + n = 512)%nat.
Proof. exact (fun r len a => discover_ub dn_expand r len a dn_expand_expands). Qed.
Print Assumptions C41_only_the_nul.

(** A CNAME record and the TXT record with a date. *)
Definition host : list (list N) := map txt ["_v1"; "_db"; "location"; "ipfire"; "org"]%string.
Definition the_date : list N := txt "Thu, 29 Feb 2024 10:42:10 GMT".
Definition example (fill : nat) (tail : list N) : reply :=
  mkReply (repeat 0 12) host [0; 1]
    [mkRr Question [0; 1] [0; 0; 0; 60] (repeat 7 fill)]
    (mkRr (Plain [txt "alias"; txt "example"; txt "org"]%string) [0; 1] [0; 0; 14; 16] (29 :: the_date))
    the_date [] tail.

Lemma example_ok fill tail : N.of_nat fill < 65536 -> reply_ok (example fill tail).
Proof.
  intros F. split; [reflexivity|]. split; [apply plain_okb_ok; vm_compute; reflexivity|].
  split; [reflexivity|]. split; [constructor; [|constructor]|].
  - split; [exact Logic.I|]. split; [reflexivity|]. split; [reflexivity|]. cbn [rr_data]. now rewrite repeat_length.
  - split; [|split; [reflexivity|split; apply Nat.leb_le; reflexivity]].
    split; [apply plain_okb_ok; vm_compute; reflexivity|]. split; [reflexivity|]. split; reflexivity.
Qed.

Example C41_case : exists answer, length answer = 512%nat /\
  discover dn_expand 0 172 answer = Ok ((-1)%Z, None) /\ discover dn_expand 0 173 answer = Ok (0%Z, Some 1709203330%Z).
Proof.
  exists (firstn 512 (reply_bytes (example 57 []) ++ repeat 255 400)). split; [vm_compute; reflexivity|].
  split; vm_compute; reflexivity.
Qed.

(** Every well-formed reply of 512 octets that ends with the string makes the
    function write outside of the buffer. *)
Theorem C41_full_reply_refuted : forall m, reply_ok m -> length (reply_bytes m) = 512%nat -> more m = [] -> rest m = [] ->
  discover dn_expand 0 512 (reply_bytes m) = UB.
Proof. exact discover_full. Qed.
Print Assumptions C41_full_reply_refuted.

Example C41_full_reply_case : reply_ok (example 396 []) /\ length (reply_bytes (example 396 [])) = 512%nat.
Proof. split; [apply example_ok; vm_compute; reflexivity|vm_compute; reflexivity]. Qed.

(** C52. The time in a well-formed reply is the result, whatever CNAME records
    come first and whatever follows. Missing: the replies of C41_full_reply_refuted. *)
Theorem C52_latest_version_partial : forall m pad w y mo d h mi s, reply_ok m -> In w day_names ->
  valid_date y mo d h mi s -> string_ m = date_text w y mo d h mi s -> length (reply_bytes m ++ pad) = 512%nat ->
  (length (reply_bytes m) < 512)%nat \/ more m ++ rest m <> [] ->
  discover dn_expand 0 (Z.of_nat (length (reply_bytes m))) (reply_bytes m ++ pad) =
  Ok (0%Z, Some (seconds_since_epoch y mo d h mi s)).
Proof. exact discover_date. Qed.
Print Assumptions C52_latest_version_partial.

Example C52_case :
  reply_ok (example 57 [1; 2; 3]) /\ In (txt "Thu") day_names /\ valid_date 2024 2 29 10 42 10 /\
  the_date = date_text (txt "Thu") 2024 2 29 10 42 10 /\ length (reply_bytes (example 57 [1; 2; 3])) = 176%nat /\
  seconds_since_epoch 2024 2 29 10 42 10 = 1709203330%Z.
Proof.
  split; [apply example_ok; reflexivity|]. split; [cbn; auto|].
  split; [repeat split; vm_compute; congruence|]. split; [reflexivity|]. split; [reflexivity|].
  vm_compute. reflexivity.
Qed.

(** A string that is no date is refused: what strptime accepts beyond the format
    of the record are other case, names in full, fewer digits and white space. *)
Theorem C52_only_dates : forall m pad, reply_ok m -> Forall (fun c => c <> 0) (string_ m) ->
  length (reply_bytes m ++ pad) = 512%nat -> (length (reply_bytes m) < 512)%nat \/ more m ++ rest m <> [] ->
  (exists y mo d h mi s, date_like (string_ m) y mo d h mi s /\
    discover dn_expand 0 (Z.of_nat (length (reply_bytes m))) (reply_bytes m ++ pad) =
    Ok (0%Z, Some (seconds_since_epoch y mo d h mi s))) \/
  discover dn_expand 0 (Z.of_nat (length (reply_bytes m))) (reply_bytes m ++ pad) = Ok ((-1)%Z, Some 0%Z).
Proof. exact discover_only_dates. Qed.
Print Assumptions C52_only_dates.

(** Both cases occur. *)
Definition says (s : string) : reply :=
  mkReply (repeat 0 12) host [0; 1] []
    (mkRr Question [0; 1] [0; 0; 14; 16] (N.of_nat (length (txt s)) :: txt s)) (txt s) [] [].
Definition asks (s : string) : outcome (Z * option Z) :=
  discover dn_expand 0 (Z.of_nat (length (reply_bytes (says s)))) (reply_bytes (says s) ++ repeat 255 (512 - length (reply_bytes (says s)))).
Example C52_only_dates_case :
  asks "thursday,29 FEBRUARY 2024 9:42:10  GMT" = Ok (0%Z, Some 1709199730%Z) /\
  asks "Thu, 29 Feb 2024 10:42:10 GMT." = Ok ((-1)%Z, Some 0%Z) /\
  asks "Thu, 29 Feb 2024 24:42:10 GMT" = Ok ((-1)%Z, Some 0%Z).
Proof. split; [|split]; vm_compute; reflexivity. Qed.
