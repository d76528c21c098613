(** Model of src/stringpool.c. *)
From Coq Require Import NArith ZArith List Bool Arith.
From Verif Require Import Base ModelCountryCode.
Import ListNotations.
Open Scope N_scope.

(** stringpool.c:28-43 struct loc_stringpool. [sp_data] holds the first [length]
    octets of the storage, [sp_size] is the number of allocated octets (0 when the
    pool refers to a mapped file). *)
Record pool := mkPool {
  sp_data : list N;
  sp_size : N
}.

(** stringpool.c:104-115 loc_stringpool_new *)
Definition pool_new : pool := mkPool [] 0.

(** LOC_STRINGPOOL_BLOCK_SIZE, stringpool.h *)
Definition block_size : N := 512 * 1024.

(** A C string in memory: the octets up to the first NUL. Running off the end of
    the known memory is undefined behaviour. *)
Fixpoint scan (m : list N) : outcome cstr :=
  match m with
  | [] => UB
  | x :: m' => if x =? 0 then Ok [] else do s <- scan m'; Ok (x :: s)
  end.
Definition read_cstr (m : list N) (off : nat) : outcome cstr := scan (skipn off m).

(** strcmp(a, b) == 0 *)
Fixpoint cstr_eqb (a b : cstr) : bool :=
  match a, b with
  | [], [] => true
  | x :: a', y :: b' => (x =? y) && cstr_eqb a' b'
  | _, _ => false
  end.

(** stringpool.c:45-62 loc_stringpool_grow; realloc is taken to succeed. *)
Definition pool_grow (p : pool) (size : N) : pool := mkPool (sp_data p) (sp_size p + size).

(** stringpool.c:64-91 loc_stringpool_append; memcpy past the allocation is
    undefined behaviour. *)
Definition pool_append (p : pool) (s : option cstr) : outcome (pool * nat) :=
  match s with
  | None => Err (-1)
  | Some s =>
      let len := N.of_nat (length s) + 1 in
      let p := if sp_size p <? N.of_nat (length (sp_data p)) + len then pool_grow p block_size else p in
      let offset := length (sp_data p) in
      if sp_size p <? N.of_nat offset + len then UB
      else Ok (mkPool (sp_data p ++ s ++ [0]) (sp_size p), offset)
  end.

(** stringpool.c:157-166 loc_stringpool_get: the pointer as an offset into the
    data, or [None] for NULL. *)
Definition pool_get (p : pool) (off : nat) : option nat :=
  if (length (sp_data p) <=? off)%nat then None else Some off.

(** stringpool.c:179-193, the loop of loc_stringpool_find *)
Fixpoint pool_find_loop (p : pool) (s : cstr) (off : nat) (fuel : nat) : outcome (option nat) :=
  if (off <? length (sp_data p))%nat then
    match fuel with
    | O => Fuel
    | S fuel' =>
        match pool_get p off with
        | None => Ok (Some 1%nat)
        | Some at_ =>
            do str <- read_cstr (sp_data p) at_;
            if cstr_eqb s str then Ok (Some off)
            else pool_find_loop p s (off + (length str + 1)) fuel'
        end
    end
  else Ok None.

(** stringpool.c:172-197 loc_stringpool_find; [None] is -1. *)
Definition pool_find (p : pool) (s : option cstr) : outcome (option nat) :=
  match s with
  | None | Some [] => Ok None
  | Some s => pool_find_loop p s 0 (length (sp_data p))
  end.

(** stringpool.c:199-207 loc_stringpool_add *)
Definition pool_add (p : pool) (s : option cstr) : outcome (pool * nat) :=
  do r <- pool_find p s;
  match r with
  | Some offset => Ok (p, offset)
  | None => pool_append p s
  end.
