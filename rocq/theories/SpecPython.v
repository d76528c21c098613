(** What is claimed about the objects of the Python binding *)
From Coq Require Import NArith ZArith List Bool.
From Verif Require Import Base ModelAddress ModelCountryCode ModelNetwork SpecNetwork ModelObjects SpecObjects SpecText ModelBindings SpecCommand ModelPython.
Import ListNotations.
Open Scope N_scope.

(** the operators on two objects, whether they are the same one or not *)
Definition operators {A} (cmp : A -> A -> Z) (eq lt : A -> A -> Prop) (a b : A) : Prop :=
  forall same, exists e l g,
    py_compare cmp same EQ a b = value e /\ (e = true <-> eq a b) /\
    py_compare cmp same LT a b = value l /\ (l = true <-> lt a b) /\
    py_compare cmp same GT a b = value g /\ (g = true <-> lt b a) /\
    py_compare cmp same LE a b = raise TypeError /\ py_compare cmp same GE a b = raise TypeError.
(** exactly one holds, and the order is transitive *)
Definition total_order {A} (ok : A -> Prop) (eq lt : A -> A -> Prop) : Prop :=
  (forall a b, ok a -> ok b -> (eq a b /\ ~ lt a b /\ ~ lt b a) \/ (~ eq a b /\ lt a b /\ ~ lt b a) \/ (~ eq a b /\ ~ lt a b /\ lt b a)) /\
  (forall a, ok a -> eq a a) /\ (forall a b, ok a -> ok b -> eq a b -> eq b a) /\
  (forall a b c, ok a -> ok b -> ok c -> eq a b -> eq b c -> eq a c) /\
  (forall a b c, ok a -> ok b -> ok c -> lt a b -> lt b c -> lt a c) /\
  (forall a b c, ok a -> ok b -> ok c -> eq a b -> (lt a c <-> lt b c) /\ (lt c a <-> lt c b)).

(** networks are equal if they have the same addresses; those that begin first come first,
    larger ones before smaller ones *)
Definition same_network (n m : network) : Prop := forall v, member n v <-> member m v.
Definition network_before (n m : network) : Prop :=
  num (n_first n) < num (n_first m) \/ (num (n_first n) = num (n_first m) /\ num (n_last m) < num (n_last n)).
(** codes are two letters *)
Definition code_ok (c : country) : Prop := 65 <= fst (c_code c) <= 90 /\ 65 <= snd (c_code c) <= 90.
Definition code_of (c : country) : cstr := [fst (c_code c); snd (c_code c)].
Definition code_before (a b : country) : Prop :=
  exists x y z x' z', code_of a = x ++ y :: z /\ code_of b = x ++ x' :: z' /\ y < x'.

(** a text without a NUL *)
Definition plain_text (s : cstr) : Prop := is_text s /\ ~ In 0 s.
Definition letters (s : cstr) : Prop := exists a b, s = [a; b] /\ 65 <= a <= 90 /\ 65 <= b <= 90 /\ a <> 88.
(** two networks differ only in one attribute *)
Definition but_asn (n m : network) : Prop := m = with_asn n (n_asn m).
Definition but_code (n m : network) : Prop := m = with_cc n (n_cc m).
Definition but_flags (n m : network) : Prop := m = with_flags n (n_flags m).
