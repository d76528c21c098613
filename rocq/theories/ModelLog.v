(** Model of the log: src/libloc.c, the macros of src/libloc/private.h, and the functions
    for it of src/lua/location.c. Messages are formatted texts; va_list, file descriptors and
    the memory of the texts are not modelled. *)
From Coq Require Import String.
From Coq Require Import NArith ZArith List Bool Arith.
From Verif Require Import Base ModelCountryCode ModelStringPool ModelText SpecText.
Import ListNotations.
Open Scope N_scope.

(** syslog.h *)
Definition LOG_ERR : Z := 3.
Definition LOG_INFO : Z := 6.
Definition LOG_DEBUG : Z := 7.

(** strtol(s, &endptr, 10): what endptr points to, which is all of [s] if there is no
    number; the number is [strtol] of ModelText. *)
Fixpoint skip_digits (s : cstr) : cstr := match s with c :: s' => if is_digit c then skip_digits s' else s | [] => [] end.
Definition skip_sign (s : cstr) : cstr := match s with c :: s' => if (c =? 45) || (c =? 43) then s' else s | [] => [] end.
Definition strtol_end (s : cstr) : cstr :=
  match skip_sign (skip_space s) with
  | c :: s' => if is_digit c then skip_digits s' else s
  | [] => s
  end.
(** A long stored in an int (gcc) *)
Definition as_int (z : Z) : Z := ((z + 2 ^ 31) mod 2 ^ 32 - 2 ^ 31)%Z.
(** strncmp(s, t, strlen(t)) == 0 *)
Fixpoint begins (t s : cstr) : bool :=
  match t, s with
  | [], _ => true
  | x :: t', y :: s' => (x =? y) && begins t' s'
  | _, [] => false
  end.

(** libloc.c:61-80 log_priority *)
Definition log_priority (s : cstr) : Z :=
  let number := match strtol_end s with c :: _ => is_space c | [] => true end in
  if number then as_int (strtol s)
  else if begins (txt "err") s then LOG_ERR
  else if begins (txt "info") s then LOG_INFO
  else if begins (txt "debug") s then LOG_DEBUG
  else 0%Z.

(** The callback and its data are numbers; log_stderr is the first one. *)
Inductive sink := Stderr | Callback (f data : N).
(** libloc.c:31-42 struct loc_ctx without the reference counter (see ModelRef) *)
Record ctx := mkCtx { level : Z; out : sink }.
(** What a message is made of *)
Record message := mkMessage { prio : Z; file : cstr; line : N; fn : cstr; text : cstr }.
(** What can be seen: octets written to stderr, calls of a callback *)
Inductive event := Written (s : cstr) | Called (f data : N) (m : message).

(** libloc.c:44-52 loc_log, 54-59 log_stderr *)
Definition loc_log (c : ctx) (m : message) : list event :=
  match out c with
  | Stderr => [Written (txt "libloc: " ++ fn m ++ txt ": " ++ text m)]
  | Callback f d => [Called f d m]
  end.

Section Log.
  (** whether ENABLE_DEBUG was defined *)
  Variable debug : bool.
  (** private.h:30-34 loc_log_cond, 36-43 DEBUG, INFO and ERROR *)
  Definition loc_log_cond (c : ctx) (m : message) : list event := if (prio m <=? level c)%Z then loc_log c m else [].
  Definition emit (c : ctx) (m : message) : list event :=
    if (prio m =? LOG_DEBUG)%Z && negb debug then [] else loc_log_cond c m.

  (** Calls to a context: loc_set_log_priority (136-138), loc_set_log_callback (120-123),
      loc_set_log_fn (125-130), and any function that has something to say *)
  Inductive call := Set_priority (p : Z) | Set_callback (f data : N) | Set_fn (f : N) | Say (m : message).
  (** what loc_set_log_fn says *)
  Variable registered : N -> cstr.
  Definition set_fn_message (f : N) : message := mkMessage LOG_INFO (txt "libloc.c") 129 (txt "loc_set_log_fn") (registered f).
  Definition step (c : ctx) (a : call) : ctx * list event :=
    match a with
    | Set_priority p => (mkCtx p (out c), [])
    | Set_callback f d => (mkCtx (level c) (Callback f d), [])
    | Set_fn f => (c, emit c (set_fn_message f))
    | Say m => (c, emit c m)
    end.
  Fixpoint steps (c : ctx) (l : list call) : ctx * list event :=
    match l with
    | [] => (c, [])
    | a :: l' => let (c', e) := step c a in let (c'', e') := steps c' l' in (c'', e ++ e')
    end.

  (** libloc.c:82-102 loc_new; [env] is what secure_getenv gives, [hello] are the two
      messages (the second one names the level). *)
  Definition level_of (env : option cstr) : Z := match env with Some s => log_priority s | None => LOG_ERR end.
  Variable created : cstr.
  Variable shown : Z -> cstr.
  Definition loc_new (env : option cstr) : ctx * list event :=
    let c := mkCtx (level_of env) Stderr in
    (c, emit c (mkMessage LOG_INFO (txt "libloc.c") 94 (txt "loc_new") created) ++
        emit c (mkMessage LOG_DEBUG (txt "libloc.c") 95 (txt "loc_new") (shown (level c)))).
End Log.

(** ** The Lua module *)
(** Values kept in the registry of a state *)
Inductive luafn := Fn (f : N) | Not_fn.
(** lua/location.c:35-37: the variables are those of the process, the registries those of
    each state; a key of luaL_ref is a position in the registry of the state. Contexts stay,
    as databases have references to them. *)
Record lua := mkLua { registry : N -> list luafn; ref : nat; current : option nat; contexts : list ctx }.
Definition lua0 : lua := mkLua (fun _ => []) 0 None [].
Definition grow (r : N -> list luafn) (st : N) (v : luafn) : N -> list luafn := fun x => if x =? st then r x ++ [v] else r x.
(** What can be seen: a call of a function of a state with priority and text; an error raised
    because what is called is no function; octets on stderr *)
Inductive luaevent := Lua_called (st f : N) (p : Z) (text : cstr) | Lua_error (st : N) | Lua_stderr (s : cstr).
(** Set_level has what is left of the number without its fraction, None if it is not finite;
    Keep is luaL_ref by another module; Lua_say is a message of the library for a context. *)
Inductive luacall := Open (st : N) | Set_function (st : N) (v : luafn) | Set_level (t : option Z) | Keep (st : N) (v : luafn) | Lua_say (c : nat) (m : message).
Definition the_callback : N := 1.

Section LuaLog.
  Variable debug : bool.
  Variable env : option cstr.
  (** lua/location.c:39-64 log_callback; lua_rawgeti gives nil for keys that are not there. *)
  Definition log_callback (l : lua) (st : N) (m : message) : luaevent :=
    match nth_error (registry l st) (ref l) with
    | Some (Fn f) => Lua_called st f (prio m) (text m)
    | _ => Lua_error st
    end.
  Definition lua_seen (l : lua) (e : event) : luaevent :=
    match e with Written s => Lua_stderr s | Called _ st m => log_callback l st m end.
  (** lua/location.c:66-78 set_log_callback, 80-88 set_log_level, 102-110 luaopen_location
      (what it writes to stderr is left out) *)
  Definition lua_step (l : lua) (a : luacall) : outcome (lua * list luaevent) :=
    match a with
    | Open st => Ok (mkLua (registry l) (ref l) (Some (List.length (contexts l))) (contexts l ++ [mkCtx (level_of env) Stderr]), [])
    | Set_function st (Fn f) =>
        let k := List.length (registry l st) in
        let cs := match current l with Some i => upd (contexts l) i (mkCtx (level (nth i (contexts l) (mkCtx 0 Stderr))) (Callback the_callback st)) | None => contexts l end in
        Ok (mkLua (grow (registry l) st (Fn f)) k (current l) cs, [])
    | Set_function st Not_fn => Ok (l, [Lua_error st])
    | Set_level t =>
        match t with
        | Some z =>
            if (- 2 ^ 31 <=? z)%Z && (z <? 2 ^ 31)%Z
            then Ok (mkLua (registry l) (ref l) (current l)
                      (match current l with Some i => upd (contexts l) i (mkCtx z (out (nth i (contexts l) (mkCtx 0 Stderr)))) | None => contexts l end), [])
            else UB
        | None => UB
        end
    | Keep st v => Ok (mkLua (grow (registry l) st v) (ref l) (current l) (contexts l), [])
    | Lua_say c m => match nth_error (contexts l) c with Some x => Ok (l, map (lua_seen l) (emit debug x m)) | None => UB end
    end.
  Fixpoint lua_steps (l : lua) (p : list luacall) : outcome (lua * list luaevent) :=
    match p with
    | [] => Ok (l, [])
    | a :: p' => do x <- lua_step l a; do y <- lua_steps (fst x) p'; Ok (fst y, snd x ++ snd y)
    end.
End LuaLog.
