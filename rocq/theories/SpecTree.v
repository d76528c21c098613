(** Specification of the writer's set of networks. *)
From Coq Require Import NArith ZArith List Bool Arith.
From Verif Require Import Base ModelAddress ModelCountryCode ModelNetwork ModelTree SpecNetwork.
Import ListNotations.
Open Scope N_scope.

(** The networks that hang in a tree. *)
Fixpoint stored (t : tree) : list network :=
  match t with
  | Nil => []
  | Node _ n z o => match n with Some x => [x] | None => [] end ++ stored z ++ stored o
  end.

(** Networks are the same if first address and prefix agree. *)
Definition same_block (n m : network) : bool :=
  (num (n_first n) =? num (n_first m)) && (n_prefix n =? n_prefix m)%nat.

(** country code, ASN, flags *)
Definition attributes (n : network) : cc2 * N * N := (n_cc n, n_asn n, n_flags n).
Definition with_attributes (n : network) (a : cc2 * N * N) : network :=
  let '(c, s, f) := a in mkNet (n_family n) (n_first n) (n_last n) (n_prefix n) c s f.
Definition attributes_ok (a : cc2 * N * N) : Prop :=
  let '(c, s, f) := a in
  ((fst c = 0 /\ snd c < 256) \/ (65 <= fst c <= 90 /\ 65 <= snd c <= 90 /\ fst c <> 88)) /\ s < 2 ^ 32 /\ f < 2 ^ 32.

(** The most specific network of [S] containing the address [v]. *)
Definition most_specific (S : list network) (v : N) (x : network) : Prop :=
  In x S /\ member x v /\ forall y, In y S -> member y v -> (n_prefix y <= n_prefix x)%nat.

Definition encloses (y x : network) : Prop :=
  (n_prefix y < n_prefix x)%nat /\ forall v, member x v -> member y v.
(** [y] is the closest network of [S] of the family of [x] enclosing [x]. *)
Definition closest (S : list network) (x y : network) : Prop :=
  In y S /\ n_family y = n_family x /\ encloses y x /\
  forall z, In z S -> n_family z = n_family x -> encloses z x -> (n_prefix z <= n_prefix y)%nat.

(** What can be done with a writer's networks: loc_writer_add_network; changing the
    attributes of a network that was added (the caller shares the object with the
    tree); writing the database, which cleans up the tree. *)
Inductive wop :=
| AddNetwork (n : network)
| SetAttributes (n : network) (a : cc2 * N * N)
| CleanUp.

Definition wop_ok (o : wop) : Prop :=
  match o with
  | AddNetwork n => valid_network n
  | SetAttributes n a => valid_network n /\ attributes_ok a
  | CleanUp => True
  end.

(** The network object hanging at the block of [n] is changed. *)
Definition change (t : tree) (n : network) (a : cc2 * N * N) : tree :=
  match net_of (sub t (path n)) with
  | Some x => at_path t (path n) (set_net (Some (with_attributes x a)))
  | None => t
  end.

Definition wstep (ctz0 : nat) (held : network -> bool) (t : tree) (o : wop) : outcome (tree * Z) :=
  match o with
  | AddNetwork n => Ok (tree_add t n)
  | SetAttributes n a => Ok (change t n a, 0%Z)
  | CleanUp => do t <- cleanup ctz0 held t; Ok (t, 0%Z)
  end.
Fixpoint wrun (ctz0 : nat) (held : network -> bool) (t : tree) (os : list wop) : outcome (tree * list Z) :=
  match os with
  | [] => Ok (t, [])
  | o :: os' =>
      do (t, r) <- wstep ctz0 held t o;
      do (t, rs) <- wrun ctz0 held t os';
      Ok (t, r :: rs)
  end.

(** The same on sets of networks, without clean-ups. *)
Definition set_step (S : list network) (o : wop) : list network * Z :=
  match o with
  | AddNetwork n => if existsb (same_block n) S then (S, (-EBUSY)%Z) else (n :: S, 0%Z)
  | SetAttributes n a => (map (fun x => if same_block n x then with_attributes x a else x) S, 0%Z)
  | CleanUp => (S, 0%Z)
  end.
Fixpoint set_run (S : list network) (os : list wop) : list network * list Z :=
  match os with
  | [] => (S, [])
  | o :: os' =>
      let (S, r) := set_step S o in
      let (S, rs) := set_run S os' in
      (S, r :: rs)
  end.
