(** What verifying with a key is (C89): the key is what the file holds, from its start. *)
From Coq Require Import NArith ZArith List Bool Arith.
From Verif Require Import Base ModelDatabase ModelVerify ModelKeyFile.
Import ListNotations.
Open Scope nat_scope.

Section Key.
Variable pem : list N -> verifier * nat.
Variable d : db.
(** The database is signed with the key that is in the file *)
Definition signed_by (content : list N) : Prop := verify d (fst (pem content)) = Ok 0%Z.
(** There is no key in nothing *)
Definition no_key_in_nothing : Prop := vf_key (fst (pem [])) = false.
End Key.
(** A process in which all descriptors are open on files that exist, at an offset within them *)
Definition sane (p : process) : Prop :=
  forall fd f o, fd_at p fd = Some (f, o) -> exists c, p_files p f = Some c /\ o <= length c.
