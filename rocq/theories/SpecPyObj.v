(** What programs in Python and Lua may expect of the objects of the bindings. *)
From Coq Require Import ZArith List Bool Arith.
From Verif Require Import Base ModelRef ModelPyObj.
Import ListNotations.
Open Scope nat_scope.

(** Objects of the library that are in use: the context, those of living objects of the program, and
    what such objects hold. *)
Inductive kept (st : pystate) : nat -> Prop :=
| k_ctx : kept st 0
| k_obj o x p : nth_error (st_objs st) o = Some (Some x) -> o_ptr x = Some p -> kept st p
| k_slot x c p : kept st x -> nth_error (rs_heap (st_c st)) x = Some c -> In p (slots c) -> kept st p.

(** An object of the library is there as long as it is in use, and is freed once when it
    is not. *)
Definition sound (st : pystate) : Prop :=
  (forall p, kept st p -> exists c, nth_error (rs_heap (st_c st)) p = Some c /\ frees c = 0) /\
  (forall p c, nth_error (rs_heap (st_c st)) p = Some c -> ~ kept st p -> frees c = 1).

(** Programs that use only objects they have, for what they are, and that use constructors; no
    argument of search_networks is refused, networks are added once, and finalisers are not called
    by hand. [ts] are the types of the objects, None is one that was released. *)
Definition has (ts : list (option kind)) (o : nat) (k : kind) : bool :=
  match nth_error ts o, k with
  | Some (Some Network), Network | Some (Some As), As | Some (Some Country), Country | Some (Some Database), Database
  | Some (Some Enumerator), Enumerator | Some (Some Writer), Writer => true
  | _, _ => false
  end.
Definition simple (k : kind) : bool := match k with Network | As | Country => true | _ => false end.
Definition types (ts : list (option kind)) (s : stmt) : option (list (option kind)) :=
  match s with
  | Create k ok => if simple k || match k with Database => true | _ => false end then Some (if ok then ts ++ [Some k] else ts) else None
  | Create_writer _ _ => Some (ts ++ [Some Writer])
  | Made k => if simple k then Some (ts ++ [Some k]) else None
  | Result o k => if simple k && (has ts o Database || has ts o Enumerator) then Some (ts ++ [Some k]) else None
  | Add o k _ => if simple k && has ts o Writer then Some (ts ++ [Some k]) else None
  | Iterate o | Listed o | Search o _ _ Fine => if has ts o Database then Some (ts ++ [Some Enumerator]) else None
  | Exclude o other k => if has ts o Network && has ts other Network then Some (ts ++ repeat (Some Network) k) else None
  | Verify o => if has ts o Database then Some ts else None
  | Use o => match nth_error ts o with Some (Some _) => Some ts | _ => None end
  | Delete o => match nth_error ts o with Some (Some _) => Some (upd ts o None) | _ => None end
  | Bare _ | Again _ | Add_busy _ | Gc _ | Search _ _ _ _ => None
  end.
Fixpoint typed (ts : list (option kind)) (l : list stmt) : option (list (option kind)) :=
  match l with [] => Some ts | s :: l' => match types ts s with Some ts' => typed ts' l' | None => None end end.

(** At most so many references are taken. *)
Definition items (l : option (list bool)) : nat := match l with Some l => length l | None => 0 end.
Definition effort (s : stmt) : nat :=
  match s with
  | Search _ codes asns _ => 32 + 6 * (items codes + items asns)
  | Exclude _ _ k => 32 + 9 * k
  | _ => 32
  end.
Definition efforts (l : list stmt) : nat := fold_right (fun s n => effort s + n) 0 l.
Definition few_references (l : list stmt) : Prop := (Z.of_nat (S (efforts l)) < INT_MAX)%Z.
(** References to None that were given to a writer, and the calls that open a stream *)
Definition nones (l : list stmt) : Z := fold_right (fun s n => (match s with Create_writer k _ => Z.of_nat k | _ => 0 end + n)%Z) 0%Z l.
Definition streams (l : list stmt) : nat := fold_right (fun s n => match s with Create_writer _ k => k | Verify _ => 1 | _ => 0 end + n) 0 l.
(** All objects of the program have been released and the module too; an object of the library has not. *)
Definition leaks (l : list stmt) : Prop :=
  exists st st' p c, py_run imported l = Ok st /\ (forall x, In x (st_objs st) -> x = None) /\ unload st = Ok st' /\
    nth_error (rs_heap (st_c st')) p = Some c /\ frees c = 0.
