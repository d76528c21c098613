(** Specification of network lists: ascending duplicate-free lists. Nothing here
    uses the array operations of the model except [model_step], which names the
    API calls. *)
From Coq Require Import NArith ZArith List Bool Arith Sorting.Sorted.
From Verif Require Import Base ModelAddress ModelNetwork ModelNetworkList SpecNetwork.
Import ListNotations.
Open Scope N_scope.

(** Networks are identified and ordered by first address and raw prefix (C01). *)
Definition key (n : network) : N := num (n_first n) * 256 + N.of_nat (n_prefix n).

Definition ascending (l : list network) : Prop := StronglySorted (fun a b => key a < key b) l.

(** The networks a list object holds, in order. *)
Definition contents (L : nlist) (l : list network) : Prop :=
  nsize L = length l /\ firstn (nsize L) (slots L) = map Some l.

Fixpoint set_add (n : network) (l : list network) : list network :=
  match l with
  | [] => [n]
  | x :: l' => if key n <? key x then n :: l else if key n =? key x then l else x :: set_add n l'
  end.
Definition set_remove (n : network) (l : list network) : list network :=
  filter (fun x => negb (key x =? key n)) l.
Definition set_has (n : network) (l : list network) : bool := existsb (fun x => key x =? key n) l.

Definition pairwise_disjoint (l : list network) : Prop :=
  forall i j n m, (i < j)%nat -> nth_error l i = Some n -> nth_error l j = Some m ->
  forall v, ~ (member n v /\ member m v).
Definition covered (l : list network) (v : N) : Prop := exists n, In n l /\ member n v.

(** Histories over any number of lists. *)
Inductive op :=
| Push (i : nat) (n : network)
| Pop (i : nat)
| PopFirst (i : nat)
| Remove (i : nat) (n : network)
| Contains (i : nat) (n : network)
| Get (i k : nat)
| Size (i : nat)
| Clear (i : nat)
| DropLonger (i : nat) (prefix : N)
| Merge (i j : nat).

Inductive reply := RDone | RNet (n : option network) | RBool (b : bool) | RNat (k : nat).

Definition set_at {A} (f : nat -> A) (i : nat) (x : A) : nat -> A :=
  fun j => if (j =? i)%nat then x else f j.

Definition model_step (b : nat -> nlist) (o : op) : outcome ((nat -> nlist) * reply) :=
  match o with
  | Push i n => do L <- list_push (b i) n; Ok (set_at b i L, RDone)
  | Pop i => do (r, L) <- list_pop (b i); Ok (set_at b i L, RNet r)
  | PopFirst i => do (r, L) <- list_pop_first (b i); Ok (set_at b i L, RNet r)
  | Remove i n => do L <- list_remove (b i) n; Ok (set_at b i L, RDone)
  | Contains i n => do r <- list_contains (b i) n; Ok (b, RBool r)
  | Get i k => do r <- list_get (b i) k; Ok (b, RNet r)
  | Size i => Ok (b, RNat (nsize (b i)))
  | Clear i => do L <- list_clear (b i); Ok (set_at b i L, RDone)
  | DropLonger i p => do L <- list_remove_with_prefix_smaller_than (b i) p; Ok (set_at b i L, RDone)
  | Merge i j => do L <- list_merge (b i) (b j); Ok (set_at b i L, RDone)
  end.

Definition spec_step (s : nat -> list network) (o : op) : (nat -> list network) * reply :=
  match o with
  | Push i n => (set_at s i (set_add n (s i)), RDone)
  | Pop i => (set_at s i (removelast (s i)),
              RNet (match s i with [] => None | x :: l => Some (last l x) end))
  | PopFirst i => (set_at s i (tl (s i)), RNet (hd_error (s i)))
  | Remove i n => (set_at s i (set_remove n (s i)), RDone)
  | Contains i n => (s, RBool (set_has n (s i)))
  | Get i k => (s, RNet (nth_error (s i) k))
  | Size i => (s, RNat (length (s i)))
  | Clear i => (set_at s i [], RDone)
  | DropLonger i p => (set_at s i (filter (fun x => network_prefix x <=? p) (s i)), RDone)
  | Merge i j => (set_at s i (fold_left (fun l n => set_add n l) (s j) (s i)), RDone)
  end.

Fixpoint model_run (b : nat -> nlist) (os : list op) : outcome ((nat -> nlist) * list reply) :=
  match os with
  | [] => Ok (b, [])
  | o :: os' =>
      do (b, r) <- model_step b o;
      do (b, rs) <- model_run b os';
      Ok (b, r :: rs)
  end.

Fixpoint spec_run (s : nat -> list network) (os : list op) : (nat -> list network) * list reply :=
  match os with
  | [] => (s, [])
  | o :: os' =>
      let (s, r) := spec_step s o in
      let (s, rs) := spec_run s os' in
      (s, r :: rs)
  end.

Definition op_ok (o : op) : Prop :=
  match o with
  | Push _ n | Remove _ n | Contains _ n => valid_network n
  | _ => True
  end.

(** Vocabulary for exclusion. *)
Definition strictly_inside (n m : network) : Prop :=
  (forall v, member m v -> member n v) /\ exists v, member n v /\ ~ member m v.

(** Splitting [n] down to [m] passes through ::/79 or ::fffe:0:0/95, the two
    networks whose halves the library cannot create. *)
Definition crosses (n m : network) : Prop :=
  ((n_prefix n <= 79 < n_prefix m)%nat /\ num (n_first m) < 2 ^ 49) \/
  ((n_prefix n <= 95 < n_prefix m)%nat /\ 0xfffe00000000 <= num (n_first m) <= 0xffffffffffff).

Definition inherits (x n : network) : Prop :=
  valid_network x /\ n_family x = n_family n /\ attrs x = attrs n.

(** [l] is an ascending list of disjoint networks with the attributes of [n]
    that covers exactly the addresses satisfying P. *)
Definition exactly (n : network) (l : list network) (P : N -> Prop) : Prop :=
  ascending l /\ pairwise_disjoint l /\ (forall x, In x l -> inherits x n) /\
  forall v, covered l v <-> P v.
