(** Model of src/network-list.c. *)
From Coq Require Import NArith ZArith List Bool Arith.
From Verif Require Import Base ModelAddress ModelCountryCode ModelNetwork.
Import ListNotations.
Open Scope N_scope.

(** network-list.c:26-34 struct loc_network_list: [slots] is the allocated array
    (elements, its length is elements_size; [None] is a slot that was never
    written or whose reference was given up), [nsize] is size. Sizes are assumed to stay below 2^32, the range of
    the loop indexes (32 GiB of pointers); reference counts are left out. *)
Record nlist := mkList { slots : list (option network); nsize : nat }.

(** Ghost step: slots from [size] on no longer hold a reference of the list (the C
    code leaves stale pointers there); reading one afterwards counts as undefined
    behaviour. *)
Definition forget (size : nat) (s : list (option network)) : list (option network) :=
  firstn size s ++ repeat None (length s - size).

(** network-list.c:55-67 loc_network_list_new *)
Definition list_new : nlist := mkList [] 0.

(** Reading and writing array elements; outside the allocation this is undefined
    behaviour. [read_elem] also dereferences the pointer. *)
Definition read_slot (l : list (option network)) (i : nat) : outcome (option network) :=
  match nth_error l i with Some s => Ok s | None => UB end.
Definition read_elem (l : list (option network)) (i : nat) : outcome network :=
  match nth_error l i with Some (Some n) => Ok n | _ => UB end.
Definition write_slot (l : list (option network)) (i : nat) (s : option network)
  : outcome (list (option network)) :=
  if (i <? length l)%nat then Ok (upd l i s) else UB.

(** network-list.c:36-53 loc_network_list_grow; reallocarray is taken to
    succeed. *)
Definition list_grow (l : nlist) : nlist :=
  let size := (length (slots l) * 2)%nat in
  let size := if (size <? 1024)%nat then 1024%nat else size in
  mkList (slots l ++ repeat None size) (nsize l).

(** network-list.c:97-99 loc_network_list_empty *)
Definition list_empty (l : nlist) : bool := (nsize l =? 0)%nat.

(** network-list.c:101-113 loc_network_list_clear. Every element is dereferenced
    by loc_network_unref. *)
Fixpoint clear_loop (s : list (option network)) (i : nat) (n : nat) : outcome unit :=
  match n with
  | O => Ok tt
  | S n' => do _ <- read_elem s i; clear_loop s (S i) n'
  end.
Definition list_clear (l : nlist) : outcome nlist :=
  match slots l with
  | [] => Ok l
  | _ => do _ <- clear_loop (slots l) 0 (nsize l); Ok (mkList [] 0)
  end.

(** network-list.c:126-132 loc_network_list_get; [None] is NULL. *)
Definition list_get (l : nlist) (index : nat) : outcome (option network) :=
  if (nsize l <=? index)%nat then Ok None
  else do n <- read_elem (slots l) index; Ok (Some n).

(** network-list.c:168-208, the loop of loc_network_list_find with off_t [lo],
    [hi] and [i]. *)
Fixpoint find_loop (s : list (option network)) (n : network) (lo hi i : Z) (fuel : nat)
  : outcome (nat * bool) :=
  if (lo <=? hi)%Z then
    match fuel with
    | O => Fuel
    | S fuel' =>
        let i := ((lo + hi) / 2)%Z in
        do e <- read_elem s (Z.to_nat i);
        let result := network_cmp n e in
        if (result =? 0)%Z then Ok (Z.to_nat i, true)
        else if (0 <? result)%Z then find_loop s n (i + 1) hi (i + 1) fuel'
        else find_loop s n lo (i - 1) i fuel'
    end
  else Ok (Z.to_nat i, false).

(** network-list.c:134-209 loc_network_list_find: index and the value of
    [found], which all callers initialise with 0. *)
Definition list_find (l : nlist) (n : network) : outcome (nat * bool) :=
  if list_empty l then Ok (0%nat, false)
  else
    let hi := (nsize l - 1)%nat in
    do e <- read_elem (slots l) hi;
    let result := network_cmp n e in
    if (result =? 0)%Z then Ok (hi, true)
    else if (0 <? result)%Z then Ok ((hi + 1)%nat, false)
    else find_loop (slots l) n 0 (Z.of_nat hi) 0 (nsize l + 1).

(** network-list.c:233-235: for (i = size - 1; i > index; i--) elements[i] =
    elements[i - 1], with [n] = i - index iterations left *)
Fixpoint shift_up (s : list (option network)) (index : nat) (n : nat)
  : outcome (list (option network)) :=
  match n with
  | O => Ok s
  | S n' =>
      let i := (index + n)%nat in
      do e <- read_slot s (i - 1);
      do s <- write_slot s i e;
      shift_up s index n'
  end.

(** network-list.c:211-241 loc_network_list_push *)
Definition list_push (l : nlist) (n : network) : outcome nlist :=
  do (index, found) <- list_find l n;
  if (found : bool) then Ok l
  else
    let l := if (length (slots l) <=? nsize l)%nat then list_grow l else l in
    let size := S (nsize l) in
    do s <- shift_up (slots l) index (size - 1 - index);
    do s <- write_slot s index (Some n);
    Ok (mkList s size).

(** network-list.c:243-255 loc_network_list_pop *)
Definition list_pop (l : nlist) : outcome (option network * nlist) :=
  if list_empty l then Ok (None, l)
  else
    do n <- read_elem (slots l) (nsize l - 1);
    Ok (Some n, mkList (forget (nsize l - 1) (slots l)) (nsize l - 1)).

(** for (i = index; i < size - 1; i++) elements[i] = elements[i + 1], with [n]
    iterations left (network-list.c:267-269 and 293-294) *)
Fixpoint shift_down (s : list (option network)) (i : nat) (n : nat)
  : outcome (list (option network)) :=
  match n with
  | O => Ok s
  | S n' =>
      do e <- read_slot s (i + 1);
      do s <- write_slot s i e;
      shift_down s (S i) n'
  end.

(** network-list.c:257-277 loc_network_list_pop_first *)
Definition list_pop_first (l : nlist) : outcome (option network * nlist) :=
  if list_empty l then Ok (None, l)
  else
    do n <- read_elem (slots l) 0;
    do s <- shift_down (slots l) 0 (nsize l - 1);
    Ok (Some n, mkList (forget (nsize l - 1) s) (nsize l - 1)).

(** network-list.c:279-300 loc_network_list_remove *)
Definition list_remove (l : nlist) (n : network) : outcome nlist :=
  do (index, found) <- list_find l n;
  if negb found then Ok l
  else
    do _ <- read_elem (slots l) index;
    do s <- shift_down (slots l) index (nsize l - 1 - index);
    Ok (mkList (forget (nsize l - 1) s) (nsize l - 1)).

(** network-list.c:302-308 loc_network_list_contains *)
Definition list_contains (l : nlist) (n : network) : outcome bool :=
  do (_, found) <- list_find l n; Ok found.

(** network-list.c:310-321 loc_network_list_merge; [other] is another list. *)
Fixpoint merge_loop (l other : nlist) (i : nat) (n : nat) : outcome nlist :=
  match n with
  | O => Ok l
  | S n' =>
      do e <- read_elem (slots other) i;
      do l <- list_push l e;
      merge_loop l other (S i) n'
  end.
Definition list_merge (l other : nlist) : outcome nlist := merge_loop l other 0 (nsize other).

(** network-list.c:397-426 loc_network_list_remove_with_prefix_smaller_than *)
Fixpoint rm_loop (s : list (option network)) (prefix : N) (i removed : nat) (n : nat)
  : outcome (list (option network) * nat) :=
  match n with
  | O => Ok (s, removed)
  | S n' =>
      do e <- read_elem s i;
      if prefix <? network_prefix e then rm_loop s prefix (S i) (S removed) n'
      else
        do s <- write_slot s (i - removed) (Some e);
        rm_loop s prefix (S i) removed n'
  end.
Definition list_remove_with_prefix_smaller_than (l : nlist) (prefix : N) : outcome nlist :=
  do (s, removed) <- rm_loop (slots l) prefix 0 0 (nsize l);
  Ok (mkList (forget (nsize l - removed) s) (nsize l - removed)).

(** network-list.c:355-392, the loop of loc_network_list_summarize *)
Fixpoint summarize_loop (l : nlist) (start last : addr) (fuel : nat) : outcome nlist :=
  if (addr_cmp start last <=? 0)%Z then
    match fuel with
    | O => Fuel
    | S fuel' =>
        match addr_common_bits start last with
        | None => Err (-EINVAL)
        | Some bits =>
            let bits := if (bits =? 0)%nat then 1%nat else bits in
            do n <- network_new start (N.of_nat bits);
            do l <- list_push l n;
            let start := n_last n in
            if addr_all_ones start then Ok l
            else summarize_loop l (addr_increment start) last fuel'
        end
    end
  else Ok l.

(** network-list.c:323-395 loc_network_list_summarize *)
Definition list_summarize (first last : addr) (l : nlist) (fuel : nat) : outcome nlist :=
  if negb (family_eqb (addr_family first) (addr_family last)) then Err 1
  else if (0 <=? addr_cmp first last)%Z then Err 1
  else summarize_loop l first last fuel.

(** network.c:384-438 __loc_network_exclude: the list as it is when the function
    returns, and the return code. The depth of the recursion is bounded by the
    prefix, so [fuel] is the number of prefix bits left. *)
Fixpoint exclude_rec (n other : network) (l : nlist) (fuel : nat) : outcome (nlist * Z) :=
  match fuel with
  | O => Fuel
  | S fuel' =>
      match subnets n with
      | Err c => Ok (l, c)
      | UB => UB
      | Fuel => Fuel
      | Ok (s1, s2) =>
          if (network_cmp other s1 =? 0)%Z then do l <- list_push l s2; Ok (l, 0%Z)
          else if (network_cmp other s2 =? 0)%Z then do l <- list_push l s1; Ok (l, 0%Z)
          else if is_subnet s1 other then
            do l <- list_push l s2; exclude_rec s1 other l fuel'
          else if is_subnet s2 other then
            do l <- list_push l s1; exclude_rec s2 other l fuel'
          else Ok (l, 1%Z)
      end
  end.

(** network.c:440-459 __loc_network_exclude_to_list *)
Definition exclude_to_list (self other : network) (l : nlist) : outcome (nlist * Z) :=
  if negb (is_subnet self other) then Ok (l, 0%Z)
  else if (network_cmp self other =? 0)%Z then Ok (l, 0%Z)
  else exclude_rec self other l 130.

(** network.c:461-485 loc_network_exclude; [Err] stands for a NULL result. *)
Definition network_exclude (self other : network) : outcome nlist :=
  do (l, r) <- exclude_to_list self other list_new;
  if (r =? 0)%Z then Ok l else Err r.

(** network.c:499-515, the first loop of loc_network_exclude_list, for the list
    elements i .. i + k - 1 *)
Fixpoint exclude_fill (n : network) (ex to_check : nlist) (i : nat) (k : nat) : outcome nlist :=
  match k with
  | O => Ok to_check
  | S k' =>
      do subnet <- read_elem (slots ex) i;
      do c <- list_contains to_check subnet;
      if (c : bool) then exclude_fill n ex to_check (S i) k'
      else
        do (to_check, r) <- exclude_to_list n subnet to_check;
        if (r =? 0)%Z then exclude_fill n ex to_check (S i) k' else Err r
  end.

(** network.c:537-571, the inner loop of loc_network_exclude_list. Returns
    passed, the new worklist and smallest_subnet. The return code of
    __loc_network_exclude_to_list is ignored at line 551. *)
Fixpoint exclude_check (ex to_check : nlist) (n : network) (smallest i : nat) (k : nat)
  : outcome (bool * nlist * nat) :=
  match k with
  | O => Ok (true, to_check, smallest)
  | S k' =>
      do subnet <- read_elem (slots ex) i;
      if is_subnet subnet n then Ok (false, to_check, smallest)
      else if overlaps subnet n then
        do (to_check, _) <- exclude_to_list n subnet to_check;
        Ok (false, to_check, smallest)
      else
        let r := network_cmp subnet n in
        if (0 <? r)%Z then Ok (true, to_check, smallest)
        else exclude_check ex to_check n (if (r <? 0)%Z then i else smallest) (S i) k'
  end.

(** network.c:525-578, the worklist loop of loc_network_exclude_list *)
Fixpoint exclude_loop (ex to_check subnets : nlist) (smallest : nat) (fuel : nat)
  : outcome nlist :=
  if list_empty to_check then Ok subnets
  else
    match fuel with
    | O => Fuel
    | S fuel' =>
        do (n, to_check) <- list_pop_first to_check;
        match n with
        | None => UB (* not reached: the list is not empty *)
        | Some n =>
            do c <- list_contains ex n;
            if (c : bool) then exclude_loop ex to_check subnets smallest fuel'
            else
              do (passed, to_check, smallest) <-
                exclude_check ex to_check n smallest smallest (nsize ex - smallest);
              do subnets <- (if (passed : bool) then list_push subnets n else Ok subnets);
              exclude_loop ex to_check subnets smallest fuel'
        end
    end.

(** network.c:487-583 loc_network_exclude_list; [Err] stands for NULL. The
    parameter [fuel] bounds the number of worklist iterations. *)
Definition network_exclude_list (n : network) (ex : nlist) (fuel : nat) : outcome nlist :=
  do to_check <- exclude_fill n ex list_new 0 (nsize ex);
  exclude_loop ex to_check list_new 0 fuel.
