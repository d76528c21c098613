(** Model of src/network-tree.c. *)
From Coq Require Import NArith ZArith List Bool Arith.
From Verif Require Import Base ModelAddress ModelCountryCode ModelNetwork ModelNetworkList.
Import ListNotations.
Open Scope N_scope.

(** network-tree.c:33-44 struct loc_network_tree_node: deleted flag, network, zero,
    one. [Nil] is a NULL pointer. Nodes are only freed by
    loc_network_tree_delete_node, so that a node is identified by its path from the
    root while the tree is walked and modified. *)
Inductive tree :=
| Nil
| Node (deleted : bool) (net : option network) (zero one : tree).

(** network-tree.c:272-285 loc_network_tree_node_new; calloc is taken to succeed. *)
Definition node_new : tree := Node false None Nil Nil.

(** network-tree.c:46-64 loc_network_tree_new *)
Definition tree_new : tree := node_new.

(** network-tree.c:92-97: a deleted child is undeleted, a missing one is created. *)
Definition visit (t : tree) : tree :=
  match t with
  | Nil => node_new
  | Node _ n z o => Node false n z o
  end.

(** network-tree.c:70-111 loc_network_tree_get_path: walk down the path [p],
    creating and undeleting nodes, and change the node at the end with [f]. *)
Fixpoint at_path (t : tree) (p : list bool) (f : tree -> tree) : tree :=
  match p with
  | [] => f t
  | b :: p' =>
      match t with
      | Nil => Nil (* not reached: every node on the way exists *)
      | Node d n z o =>
          if b then Node d n z (at_path (visit o) p' f)
          else Node d n (at_path (visit z) p' f) o
      end
  end.

(** The node at a path as it is. *)
Fixpoint sub (t : tree) (p : list bool) {struct p} : tree :=
  match p with
  | [] => t
  | b :: p' => match t with Nil => Nil | Node _ _ z o => sub (if b then o else z) p' end
  end.
Definition net_of (t : tree) : option network :=
  match t with Nil => None | Node _ n _ _ => n end.

(** The bits loc_network_tree_get_path follows for a network. *)
Definition path (n : network) : list bool :=
  map (fun i => addr_get_bit (n_first n) i =? 1) (seq 0 (n_prefix n)).

Definition set_net (x : option network) (t : tree) : tree :=
  match t with Nil => Nil | Node d _ z o => Node d x z o end.

(** network-tree.c:199-222 loc_network_tree_add_network; the path is created in
    any case. *)
Definition tree_add (t : tree) (n : network) : tree * Z :=
  let t := at_path t (path n) (fun s => s) in
  match net_of (sub t (path n)) with
  | Some _ => (t, (-EBUSY)%Z)
  | None => (at_path t (path n) (set_net (Some n)), 0%Z)
  end.

(** network-tree.c:224-250 loc_network_tree_delete_network *)
Definition drop_net (t : tree) : tree :=
  match t with
  | Nil => Nil
  | Node d _ Nil Nil => Node true None Nil Nil
  | Node d _ z o => Node d None z o
  end.
Definition tree_delete (t : tree) (n : network) : tree := at_path t (path n) drop_net.

(** network-tree.c:113-150 __loc_network_tree_walk from the node at path [p]. The
    tree is read again after every call because the callback changes it. [fuel]
    bounds the depth. A callback that fails ends the walk with [Err]. *)
Section Walk.
Context {S : Type}.
Variable filter : network -> bool.   (* true: skip the network *)
Variable callback : network -> tree -> S -> outcome (tree * S).

Fixpoint walk (p : list bool) (t : tree) (s : S) (fuel : nat) : outcome (tree * S) :=
  match fuel with
  | O => Fuel
  | Datatypes.S fuel' =>
      match sub t p with
      | Nil => UB
      | Node true _ _ _ => Ok (t, s)
      | Node false net _ _ =>
          let descend (t : tree) (s : S) :=
            do (t, s) <- match sub t (p ++ [false]) with
                         | Nil => Ok (t, s)
                         | Node _ _ _ _ => walk (p ++ [false]) t s fuel'
                         end;
            match sub t (p ++ [true]) with
            | Nil => Ok (t, s)
            | Node _ _ _ _ => walk (p ++ [true]) t s fuel'
            end in
          match net with
          | None => descend t s
          | Some x =>
              if filter x then Ok (t, s)
              else do (t, s) <- callback x t s; descend t s
          end
      end
  end.
End Walk.

(** Networks have at most 128 bits, so 129 levels of nodes. *)
Definition tree_walk {S} (filter : network -> bool) (callback : network -> tree -> S -> outcome (tree * S))
  (t : tree) (s : S) : outcome (tree * S) := walk filter callback [] t s 129.

(** network-tree.c:492-522, the loop of loc_network_tree_dedup_step, with k = i + 1.
    The boolean tells whether the network was removed. *)
Fixpoint dedup_loop (x : network) (t : tree) (stack : nlist) (k : nat) : outcome (tree * nlist * bool) :=
  match k with
  | O => Ok (t, stack, false)
  | S i =>
      do n <- list_get stack i;
      match n with
      | None => UB
      | Some n =>
          if is_subnet n x then
            if (properties_cmp n x =? 0)%Z then Ok (tree_delete t x, stack, true)
            else Ok (t, stack, false)
          else
            do stack <- list_remove stack n;
            dedup_loop x t stack i
      end
  end.

(** network-tree.c:486-534 loc_network_tree_dedup_step *)
Definition dedup_step (x : network) (t : tree) (stack : nlist) : outcome (tree * nlist) :=
  do (t, stack, removed) <- dedup_loop x t stack (nsize stack);
  if (removed : bool) then Ok (t, stack)
  else do stack <- list_push stack x; Ok (t, stack).

(** network-tree.c:536-568 loc_network_tree_dedup_filter and
    loc_network_tree_dedup_one. The filter is 1, i.e. skip, for the family that is
    passed. *)
Definition dedup_one (family : family) (t : tree) : outcome tree :=
  do (t, _) <- tree_walk (fun x => family_eqb family (n_family x)) dedup_step t list_new;
  Ok t.

(** network-tree.c:570-585 loc_network_tree_dedup *)
Definition dedup (t : tree) : outcome tree :=
  do t <- dedup_one AF_INET6 t;
  dedup_one AF_INET t.

Section Merge.
(** value of __builtin_ctz(0), see ModelNetwork *)
Variable ctz0 : nat.
(** whether somebody else than the tree and the list holds a reference to the
    network object *)
Variable held : network -> bool.

(** Is the network object still referenced? The tree and the list each own one
    reference per entry. *)
Definition alive (own : bool) (x : network) (t : tree) (l : nlist) : outcome bool :=
  if own then Ok true
  else if held x then Ok true
  else match net_of (sub t (path x)) with
       | Some _ => Ok true
       | None => list_contains l x
       end.

(** network-tree.c:361-432, the while loop of loc_network_tree_merge_step, with
    k = i before the test. [rec] is the recursive call of line 413. The boolean
    tells whether the step ends early (line 384, goto ERROR). *)
Fixpoint merge_loop (rec : network -> tree -> nlist -> outcome (tree * nlist))
  (x : network) (t : tree) (l : nlist) (k : nat) : outcome (tree * nlist * bool) :=
  match k with
  | O => Ok (t, l, false)
  | S i =>
      do n <- list_get l i;
      match n with
      | None => UB
      | Some n =>
          do m <- network_merge ctz0 n x;
          match m with
          | Some m =>
              let (t, r) := tree_add t m in
              if (r =? -EBUSY)%Z then Ok (t, l, true)
              else
                let t := tree_delete t x in
                let t := tree_delete t n in
                do l <- list_push l m;
                do l <- list_remove l n;
                do (t, l) <- rec m t l;
                Ok (t, l, false)
          | None =>
              do l <- list_push l x;
              merge_loop rec x t l i
          end
      end
  end.

(** network-tree.c:348-446 loc_network_tree_merge_step. [own] says that the caller
    owns a reference to [x]. The step reads [x] after the loop (line 434); if it
    was freed this is undefined behaviour. *)
Fixpoint merge_step (own : bool) (x : network) (t : tree) (l : nlist) (fuel : nat) : outcome (tree * nlist) :=
  match fuel with
  | O => Fuel
  | S fuel' =>
      if list_empty l then do l <- list_push l x; Ok (t, l)
      else
        do (t, l, early) <- merge_loop (fun m t l => merge_step true m t l fuel') x t l (nsize l);
        if (early : bool) then Ok (t, l)
        else
          do a <- alive own x t l;
          if (a : bool) then
            do l <- list_remove_with_prefix_smaller_than l (network_prefix x);
            Ok (t, l)
          else UB
  end.

(** network-tree.c:448-473 loc_network_tree_merge; a merged network is shorter by
    one bit, so the recursion is at most 129 deep. *)
Definition merge (t : tree) : outcome tree :=
  do (t, _) <- tree_walk (fun _ => false) (fun x t l => merge_step false x t l 130) t list_new;
  Ok t.

(** network-tree.c:587-629 loc_network_tree_delete_node for nodes other than the
    root: the node as it is afterwards, [Nil] if it was deleted. *)
Fixpoint prune (t : tree) : tree :=
  match t with
  | Nil => Nil
  | Node true _ _ _ => Nil
  | Node false n z o =>
      match n, prune z, prune o with
      | None, Nil, Nil => Nil
      | _, z', o' => Node false n z' o'
      end
  end.
(** network-tree.c:631-639 loc_network_tree_delete_nodes: the root is kept, unless
    it is marked as deleted. *)
Definition delete_nodes (t : tree) : tree :=
  match t with
  | Nil => Nil
  | Node true _ _ _ => Nil
  | Node false n z o => Node false n (prune z) (prune o)
  end.

(** network-tree.c:641-662 loc_network_tree_cleanup *)
Definition cleanup (t : tree) : outcome tree :=
  do t <- dedup t;
  do t <- merge t;
  Ok (delete_nodes t).
End Merge.

(** network-tree.c:252-270 loc_network_tree_count_nodes *)
Fixpoint count_nodes (t : tree) : nat :=
  match t with
  | Nil => 0
  | Node true _ _ _ => 0
  | Node false _ z o => 1 + count_nodes z + count_nodes o
  end.
