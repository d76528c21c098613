(** Model of the reference counts of all objects of the library. *)
From Coq Require Import NArith ZArith List Bool Arith.
From Verif Require Import Base.
Import ListNotations.
Open Scope nat_scope.

(** An object: its refcount (an int), the pointers it holds, in the order in which the
    function that frees the object drops them, and how often it has been
    passed to free(). A pointer is the index of an object. *)
Record cell := mkCell { refs : Z; slots : list nat; frees : nat }.
Definition heap := list cell.
Definition INT_MAX : Z := 2147483647.

(** An access to memory that has been freed is [UB]. *)
Definition access (h : heap) (p : nat) : outcome cell :=
  match nth_error h p with
  | Some c => if (frees c =? 0)%nat then Ok c else UB
  | None => UB
  end.

(** network.c:108-112 loc_network_ref, as.c:59-63, country.c:73-77, as-list.c:68-72,
    country-list.c:69-73, network-list.c:69-73, stringpool.c:142-146, network-tree.c:286-292,
    database.c:517-521 and 1144-1148, writer.c:155-159, libloc.c:101-108. Overflow of
    an int is [UB]. *)
Definition ref (h : heap) (p : nat) : outcome heap :=
  do c <- access h p;
  if (refs c <? INT_MAX)%Z then Ok (upd h p (mkCell (refs c + 1) (slots c) (frees c))) else UB.

(** free(): the second time is [UB]. *)
Definition release (h : heap) (p : nat) : outcome heap :=
  do c <- access h p;
  Ok (upd h p (mkCell (refs c) (slots c) (S (frees c)))).

Fixpoint unref_all (u : heap -> nat -> outcome heap) (h : heap) (ps : list nat) : outcome heap :=
  match ps with
  | [] => Ok h
  | p :: ps' => do h <- u h p; unref_all u h ps'
  end.

(** network.c:114-127 loc_network_free, loc_network_unref; in the same form as.c:65-81,
    country.c:79-95, as-list.c:74-92, country-list.c:75-90, network-list.c:75-91,
    stringpool.c:93-102 and 148-155, network-tree.c:162-177 and 294-317,
    database.c:457-479 and 523-529, 1064-1094 and 1150-1159, writer.c:161-196, libloc.c:110-118.
    [fuel] bounds how deep objects are nested. *)
Fixpoint unref (fuel : nat) (h : heap) (p : nat) : outcome heap :=
  match fuel with
  | O => Fuel
  | S fuel' =>
      do c <- access h p;
      let h := upd h p (mkCell (refs c - 1) (slots c) (frees c)) in
      if (0 <? refs c - 1)%Z then Ok h
      else
        do h <- unref_all (unref fuel') h (slots c);
        release h p
  end.

(** What functions of the library do with objects. *)
Inductive rop :=
| New                                (** calloc and refcount = 1; the caller has the reference *)
| Ref (p : nat)                      (** X_ref(p) *)
| Unref (p : nat)                    (** X_unref(p) *)
| RefSlot (x i : nat)                (** X_ref(x->slots[i]), as in loc_network_list_get *)
| Give (x p i : nat)                 (** the reference is stored in [x], in front of slot i *)
| Take (x i : nat).                  (** slot i is removed and returned, as in loc_network_list_pop *)

(** The heap and the references of the caller. *)
Record rstate := mkRS { rs_heap : heap; rs_own : list nat }.
Fixpoint remove_one (p : nat) (l : list nat) : list nat :=
  match l with
  | [] => []
  | q :: l' => if (q =? p)%nat then l' else q :: remove_one p l'
  end.
Definition remove_at {A} (i : nat) (l : list A) : list A := firstn i l ++ skipn (S i) l.
Definition insert_at {A} (i : nat) (x : A) (l : list A) : list A := firstn i l ++ x :: skipn i l.

Definition do_op (fuel : nat) (s : rstate) (o : rop) : outcome rstate :=
  let h := rs_heap s in
  let own := rs_own s in
  match o with
  | New => Ok (mkRS (h ++ [mkCell 1 [] 0]) (length h :: own))
  | Ref p => do h <- ref h p; Ok (mkRS h (p :: own))
  | Unref p => do h <- unref fuel h p; Ok (mkRS h (remove_one p own))
  | RefSlot x i =>
      do c <- access h x;
      match nth_error (slots c) i with
      | Some p => do h <- ref h p; Ok (mkRS h (p :: own))
      | None => Ok s (* returns NULL *)
      end
  | Give x p i =>
      do c <- access h x;
      Ok (mkRS (upd h x (mkCell (refs c) (insert_at i p (slots c)) (frees c))) (remove_one p own))
  | Take x i =>
      do c <- access h x;
      match nth_error (slots c) i with
      | Some p => Ok (mkRS (upd h x (mkCell (refs c) (remove_at i (slots c)) (frees c))) (p :: own))
      | None => Ok s
      end
  end.
Fixpoint do_ops (fuel : nat) (s : rstate) (os : list rop) : outcome rstate :=
  match os with
  | [] => Ok s
  | o :: os' => do s <- do_op fuel s o; do_ops fuel s os'
  end.

(** ** Functions of the library *)
(** network.c:40-90 loc_network_new, as.c:41-57, country.c:48-71, as-list.c:53-66,
    country-list.c:54-67, network-list.c:55-67, stringpool.c:104-115, network-tree.c:270-284:
    [n] is the new object, [c] the context *)
Definition object_new (n c : nat) : list rop := [New; Ref c; Give n c 0].
(** network-list.c:212-241 loc_network_list_push, as-list.c:124-141, country-list.c:122-139:
    [i] is the place; nothing is done if the element is on the list already *)
Definition list_push (l x i : nat) : list rop := [Ref x; Give l x i].
(** network-list.c:279-300 loc_network_list_remove: [x] is the element at [i]. (The
    reference is dropped before the gap is closed; nothing reads the list between.) *)
Definition list_remove (l x i : nat) : list rop := [Take l i; Unref x].
(** network-list.c:101-114 loc_network_list_clear, as-list.c:102-115, country-list.c:100-113 *)
Definition list_clear (l : nat) (xs : list nat) : list rop := flat_map (fun x => list_remove l x 0) xs.
(** database.c:1179-1187 loc_database_enumerator_set_countries and set_asns: [old] is what slot [i]
    holds *)
Definition set_list (e new i : nat) (old : option nat) : list rop :=
  (match old with Some o => [Take e i; Unref o] | None => [] end) ++ [Ref new; Give e new i].
(** database.c:1096-1142 loc_database_enumerator_new: [e] and [stack] are the new objects, [c] is the
    context of the database, the slot 1 of it *)
Definition enumerator_new (e db c stack : nat) : list rop :=
  [New; RefSlot db 1; Give e c 0; Ref db; Give e db 0] ++ object_new stack c ++ [Give e stack 2].
(** database.c:481-515 loc_database_new, with the string pool of stringpool.c:117-140 *)
Definition database_new (db pool c : nat) : list rop :=
  [New; Ref c; Give db c 0] ++ object_new pool c ++ [Give db pool 0].
(** network-list.c:340-380 in loc_network_list_summarize: a network is created and pushed,
    the reference to it is not dropped *)
Definition summarize_step (n c l i : nat) : list rop := object_new n c ++ list_push l n i.
(** writer.c:318-332 in loc_database_write_as_section: [xs] are the elements of the list [l]
    from [i] on *)
Fixpoint write_as (l i : nat) (xs : list nat) : list rop :=
  match xs with
  | [] => []
  | x :: xs' => RefSlot l i :: Unref x :: write_as l (S i) xs'
  end.
(** writer.c:534-543 in loc_database_write_countries: the same, but nothing is dropped; [n]
    elements *)
Definition write_countries (l n : nat) : list rop := map (RefSlot l) (seq 0 n).
