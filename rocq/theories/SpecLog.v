(** What the log has to do. *)
From Coq Require Import String.
From Coq Require Import NArith ZArith List Bool Arith.
From Verif Require Import Base ModelCountryCode ModelStringPool SpecText ModelLog.
Import ListNotations.
Open Scope N_scope.

(** White space of C *)
Definition blank (c : N) : Prop := c = 32 \/ 9 <= c <= 13.
Definition ends (r : cstr) : Prop := r = [] \/ exists c r', r = c :: r' /\ blank c.
(** Levels as text: decimal numbers that fit, with a sign or without, and three names of
    which the rest does not matter *)
Inductive says_level : cstr -> Z -> Prop :=
| Number b s v r : Forall blank b -> decimal s v -> ends r -> v < 2 ^ 31 -> says_level (b ++ s ++ r) (Z.of_N v)
| Plus b s v r : Forall blank b -> decimal s v -> ends r -> v < 2 ^ 31 -> says_level (b ++ [43] ++ s ++ r) (Z.of_N v)
| Minus b s v r : Forall blank b -> decimal s v -> ends r -> v <= 2 ^ 31 -> says_level (b ++ [45] ++ s ++ r) (- Z.of_N v)
| Err_ r : says_level (txt "err" ++ r) 3
| Info r : says_level (txt "info" ++ r) 6
| Debug r : says_level (txt "debug" ++ r) 7.
(** Texts that are none of these and do not look like a number *)
Definition no_level (s : cstr) : Prop :=
  exists b r, s = b ++ r /\ Forall blank b /\
    match r with c :: _ => ~ blank c /\ c <> 43 /\ c <> 45 /\ (c < 48 \/ 57 < c) | [] => True end /\
    forall t, s <> txt "err" ++ t /\ s <> txt "info" ++ t /\ s <> txt "debug" ++ t.

(** The last value given by a list of calls *)
Definition latest {C A} (f : C -> option A) (first : A) (h : list C) (x : A) : Prop :=
  (exists h1 a h2, h = h1 ++ a :: h2 /\ f a = Some x /\ Forall (fun b => f b = None) h2) \/
  (Forall (fun b => f b = None) h /\ x = first).
Definition priority_of (a : call) : option Z := match a with Set_priority p => Some p | _ => None end.
Definition callback_of (a : call) : option sink := match a with Set_callback f d => Some (Callback f d) | _ => None end.

(** A message is passed on once if it is important enough; those for debugging only if the
    library was built for it. *)
Definition to (o : sink) (m : message) : event :=
  match o with
  | Callback f d => Called f d m
  | Stderr => Written (txt "libloc: " ++ fn m ++ txt ": " ++ text m)
  end.
Definition important (debug : bool) (p : Z) (m : message) : Prop := (prio m <= p)%Z /\ (prio m = 7%Z -> debug = true).
Definition passed_on (debug : bool) (p : Z) (o : sink) (m : message) (e : list event) : Prop :=
  (important debug p m -> e = [to o m]) /\ (~ important debug p m -> e = []).

(** Programs with one state of Lua that load the module once *)
Definition of_state (st : N) (a : luacall) : Prop :=
  match a with Open _ => False | Set_function s _ => s = st | Lua_say c _ => c = 0%nat | _ => True end.
Definition level_set (a : luacall) : option Z := match a with Set_level (Some z) => Some z | _ => None end.
Definition function_set (a : luacall) : option (option N) := match a with Set_function _ (Fn f) => Some (Some f) | _ => None end.
Definition level_fits (a : luacall) : Prop :=
  match a with Set_level t => exists z, t = Some z /\ (- 2 ^ 31 <= z < 2 ^ 31)%Z | _ => True end.
Definition lua_to (st : N) (f : option N) (m : message) : luaevent :=
  match f with
  | Some f => Lua_called st f (prio m) (text m)
  | None => Lua_stderr (txt "libloc: " ++ fn m ++ txt ": " ++ text m)
  end.
Definition functions_set (st : N) (p : list luacall) : nat :=
  List.length (filter (fun a => match a with Set_function s (Fn _) => s =? st | _ => false end) p).
(** What is seen of a program that runs to its end *)
Definition seen (x : outcome (lua * list luaevent)) : option (list luaevent) := match x with Ok y => Some (snd y) | _ => None end.
