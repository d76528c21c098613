(** Model of src/address.c and of the functions of src/network.c that produce
    or read text. A string is the list of its characters (character codes, no
    terminating NUL).

    inet_pton and inet_ntop are not part of libloc. They are modelled after
    glibc (inet/inet_pton.c and resolv/inet_ntop.c), because what libloc accepts
    and prints depends on what they do. *)
From Coq Require Import NArith ZArith List Bool Arith.
From Verif Require Import Base ModelAddress ModelCountryCode ModelNetwork.
Import ListNotations.
Open Scope N_scope.

(** Character codes: '.' ':' '/' '*' '-' '+' *)
Definition DOT : N := 46.
Definition COLON : N := 58.
Definition SLASH : N := 47.
Definition STAR : N := 42.

(** The character of a digit, lower case as printf's %x prints it. *)
Definition digit_char (d : N) : N := if d <? 10 then 48 + d else 87 + d.

(** printf's %u (base 10) and %x (base 16) of an unsigned int. *)
Fixpoint digits (base : N) (fuel : nat) (n : N) : cstr :=
  match fuel with
  | O => []
  | S fuel' =>
      if n <? base then [digit_char n]
      else digits base fuel' (n / base) ++ [digit_char (n mod base)]
  end.
Definition dec (n : N) : cstr := digits 10 40 n.
Definition hex (n : N) : cstr := digits 16 40 n.

(** glibc inet_ntop4: "%u.%u.%u.%u" *)
Definition ntop4 (l : list N) : cstr :=
  dec (nth 0 l 0) ++ DOT :: dec (nth 1 l 0) ++ DOT :: dec (nth 2 l 0) ++ DOT :: dec (nth 3 l 0).

(** glibc inet_ntop6: the eight 16-bit words of the address *)
Fixpoint words (l : list N) : list N :=
  match l with
  | a :: b :: l' => (a * 256 + b) :: words l'
  | _ => []
  end.

(** inet_ntop6: search for the longest run of zero words. A run is a pair of
    base and length; base -1 is [None]. [keep] is the comparison done when a run
    ends. *)
Definition keep (best cur : option (nat * nat)) : option (nat * nat) :=
  match cur with
  | None => best
  | Some (cb, cl) =>
      match best with
      | None => cur
      | Some (bb, bl) => if (bl <? cl)%nat then cur else best
      end
  end.
Fixpoint runs (ws : list N) (i : nat) (best cur : option (nat * nat)) : option (nat * nat) :=
  match ws with
  | [] => keep best cur
  | w :: ws' =>
      if w =? 0 then
        runs ws' (S i) best
          (match cur with None => Some (i, 1%nat) | Some (cb, cl) => Some (cb, S cl) end)
      else runs ws' (S i) (keep best cur) None
  end.
Definition best_run (ws : list N) : option (nat * nat) :=
  match runs ws 0 None None with
  | Some (b, l) => if (l <? 2)%nat then None else Some (b, l)
  | None => None
  end.

(** inet_ntop6: is word [i] inside the best run? *)
Definition in_run (best : option (nat * nat)) (i : nat) : bool :=
  match best with None => false | Some (b, l) => (b <=? i)%nat && (i <? b + l)%nat end.
Definition run_base (best : option (nat * nat)) (i : nat) : bool :=
  match best with None => false | Some (b, l) => (b =? i)%nat end.

(** inet_ntop6: does an encapsulated IPv4 address start at word 6? *)
Definition ipv4_tail (best : option (nat * nat)) (ws : list N) : bool :=
  match best with
  | Some (O, l) => (l =? 6)%nat || ((l =? 5)%nat && (nth 5 ws 0 =? 65535))
  | _ => false
  end.

(** inet_ntop6: the loop that formats the words from index [i] on; [a] is the
    address. *)
Fixpoint ntop6_loop (a : addr) (ws : list N) (best : option (nat * nat)) (i : nat) (n : nat) : cstr :=
  match n with
  | O => []
  | S n' =>
      if in_run best i then
        (if run_base best i then [COLON] else []) ++ ntop6_loop a ws best (S i) n'
      else
        (if (i =? 0)%nat then [] else [COLON]) ++
        (if (i =? 6)%nat && ipv4_tail best ws then ntop4 (skipn 12 a)
         else hex (nth i ws 0) ++ ntop6_loop a ws best (S i) n')
  end.
Definition ntop6 (a : addr) : cstr :=
  let ws := words a in
  let best := best_run ws in
  ntop6_loop a ws best 0 8 ++
  (match best with Some (b, l) => if (b + l =? 8)%nat then [COLON] else [] | None => [] end).

(** The common end of inet_ntop4/inet_ntop6: ENOSPC unless text and NUL fit. *)
Definition sized (size : nat) (s : cstr) : option cstr :=
  if (size <=? length s)%nat then None else Some s.

(** glibc inet_pton4. [cur] are the finished octets (tmp), [v] the value of *tp,
    [saw] is saw_digit, [n] is octets. *)
Definition is_digit (c : N) : bool := (48 <=? c) && (c <=? 57).
Fixpoint pton4_loop (s : cstr) (cur : list N) (v : N) (saw : bool) (n : nat) : option (list N) :=
  match s with
  | [] => if (n <? 4)%nat then None else Some (cur ++ [v])
  | c :: s' =>
      if is_digit c then
        let new := v * 10 + (c - 48) in
        if saw && (v =? 0) then None
        else if 255 <? new then None
        else if saw then pton4_loop s' cur new true n
        else if (4 <? S n)%nat then None
        else pton4_loop s' cur new true (S n)
      else if (c =? DOT) && saw then
        if (n =? 4)%nat then None else pton4_loop s' (cur ++ [v]) 0 false n
      else None
  end.
Definition pton4 (s : cstr) : option (list N) := pton4_loop s [] 0 false 0.

(** glibc hex_digit_value *)
Definition hex_value (c : N) : option N :=
  if is_digit c then Some (c - 48)
  else if (97 <=? c) && (c <=? 102) then Some (c - 87)
  else if (65 <=? c) && (c <=? 70) then Some (c - 55)
  else None.

(** glibc inet_pton6: the part behind the loop. [tmp] are the octets stored so
    far, [colon] is colonp. *)
Definition pton6_end (tmp : list N) (colon : option nat) (seen : nat) (v : N) : option addr :=
  let stored :=
    if (0 <? seen)%nat then
      if (16 <? length tmp + 2)%nat then None
      else Some (tmp ++ [v / 256 mod 256; v mod 256])
    else Some tmp in
  match stored with
  | None => None
  | Some tmp =>
      match colon with
      | Some c =>
          if (length tmp =? 16)%nat then None
          else Some (firstn c tmp ++ repeat 0 (16 - length tmp) ++ skipn c tmp)
      | None => if (length tmp =? 16)%nat then Some tmp else None
      end
  end.

(** glibc inet_pton6: the loop. [tok] is curtok. *)
Fixpoint pton6_loop (s tok : cstr) (tmp : list N) (colon : option nat) (seen : nat) (v : N)
    {struct s} : option addr :=
  match s with
  | [] => pton6_end tmp colon seen v
  | c :: s' =>
      match hex_value c with
      | Some d =>
          if (seen =? 4)%nat then None
          else if 65535 <? v * 16 + d then None
          else pton6_loop s' tok tmp colon (S seen) (v * 16 + d)
      | None =>
          if c =? COLON then
            if (seen =? 0)%nat then
              match colon with
              | Some _ => None
              | None => pton6_loop s' s' tmp (Some (length tmp)) 0 v
              end
            else
              match s' with
              | [] => None
              | _ =>
                  if (16 <? length tmp + 2)%nat then None
                  else pton6_loop s' s' (tmp ++ [v / 256 mod 256; v mod 256]) colon 0 0
              end
          else if (c =? DOT) && (length tmp + 4 <=? 16)%nat then
            match pton4 tok with
            | Some o => pton6_end (tmp ++ o) colon 0 v
            | None => None
            end
          else None
      end
  end.
(** glibc inet_pton6 *)
Definition pton6 (s : cstr) : option addr :=
  match s with
  | [] => None
  | c :: s' =>
      if c =? COLON then
        match s' with
        | c' :: _ => if c' =? COLON then pton6_loop s' s' [] None 0 0 else None
        | [] => None
        end
      else pton6_loop s s [] None 0 0
  end.

(** Buffer sizes: netinet/in.h INET6_ADDRSTRLEN, address.c:27-28,
    address.c:70 and network.c:49 (sizes of the buffers minus one, the size
    given to snprintf). *)
Definition INET6_ADDRSTRLEN : nat := 46.
Definition ADDRESS_BUFFERS : nat := 6.
Definition TEXT_SIZE : nat := 49.

(** address.c:30-31 __loc_address_buffers and __loc_address_buffer_idx *)
Record ring := mkRing { r_buffers : list cstr; r_idx : nat }.
Definition ring0 : ring := mkRing (repeat [] ADDRESS_BUFFERS) 0.

(** address.c:33-43 __loc_address6_str, __loc_address4_str *)
Definition address_text (a : addr) (size : nat) : option cstr :=
  if v4mapped a then sized size (ntop4 (skipn 12 a)) else sized size (ntop6 a).

(** address.c:45-60 loc_address_str. The pointer returned is the index of the
    buffer. An index outside of the array is [UB]. *)
Definition address_str (r : ring) (a : option addr) : outcome (ring * option nat) :=
  match a with
  | None => Ok (r, None)
  | Some a =>
      let i := r_idx r in
      let idx := ((i + 1) mod ADDRESS_BUFFERS)%nat in
      if (ADDRESS_BUFFERS <=? i)%nat then UB
      else
        match address_text a INET6_ADDRSTRLEN with
        | Some s => Ok (mkRing (upd (r_buffers r) i s) idx, Some i)
        | None => Ok (mkRing (r_buffers r) idx, None)
        end
  end.

(** The string a pointer returned by loc_address_str points at. *)
Definition deref (r : ring) (p : nat) : cstr := nth p (r_buffers r) [].

(** Any sequence of calls of loc_address_str by the rest of the program *)
Fixpoint address_strs (r : ring) (l : list (option addr)) : outcome ring :=
  match l with
  | [] => Ok r
  | a :: l' => do x <- address_str r a; address_strs (fst x) l'
  end.

(** snprintf(buffer, size, "%s", s): what is in the buffer afterwards *)
Definition snprintf (size : nat) (s : cstr) : cstr := firstn (size - 1) s.

(** network.c:129-149 loc_network_str for a network whose string has not been
    formatted before. The string is cached in the network; first address and
    prefix of a network never change, so a second call gives the same string. *)
Definition network_str (r : ring) (n : network) : outcome (ring * option cstr) :=
  do x <- address_str r (Some (n_first n));
  let '(r, p) := x in
  match p with
  | None => Ok (r, None)
  | Some p => Ok (r, Some (snprintf TEXT_SIZE (deref r p ++ SLASH :: dec (network_prefix n))))
  end.

(** strchr(s, '/'): the parts before and behind the first slash *)
Fixpoint split_slash (s : cstr) : cstr * option cstr :=
  match s with
  | [] => ([], None)
  | c :: s' =>
      if c =? SLASH then ([], Some s')
      else let (x, y) := split_slash s' in (c :: x, y)
  end.

(** strtol(s, NULL, 10) with a 64-bit long: white space, sign, digits, result
    limited to the range of long. *)
Definition is_space (c : N) : bool := (c =? 32) || ((9 <=? c) && (c <=? 13)).
Fixpoint skip_space (s : cstr) : cstr :=
  match s with
  | c :: s' => if is_space c then skip_space s' else s
  | [] => []
  end.
Fixpoint read_digits (s : cstr) (v : N) : N :=
  match s with
  | c :: s' => if is_digit c then read_digits s' (v * 10 + (c - 48)) else v
  | [] => v
  end.
Definition strtol (s : cstr) : Z :=
  match skip_space s with
  | c :: s' =>
      if c =? 45 then Z.max (- 2 ^ 63) (- Z.of_N (read_digits s' 0))
      else if c =? 43 then Z.min (2 ^ 63 - 1) (Z.of_N (read_digits s' 0))
      else Z.min (2 ^ 63 - 1) (Z.of_N (read_digits (c :: s') 0))
  | [] => 0%Z
  end.

(** address.c:62-68 loc_address_from_address4 *)
Definition from_address4 (l : list N) : addr := repeat 0 10 ++ [255; 255] ++ l.

(** address.c:70-160 loc_address_parse. [want] says whether the prefix pointer
    is given; without it the number in the result has no meaning. snprintf fails
    for strings longer than INT_MAX. The family is that of the notation, not that
    of the address. inet_pton never returns -1 for these two families. *)
Definition address_parse (want : bool) (s : option cstr) : outcome (addr * N) :=
  match s with
  | None => Err 1
  | Some s =>
      if 2 ^ 31 - 1 <? N.of_nat (length s) then Err 1
      else
        let (t, p) := split_slash (snprintf TEXT_SIZE s) in
        let parsed :=
          match pton6 t with
          | Some a => Some (a, AF_INET6)
          | None =>
              match pton4 t with
              | Some l => Some (from_address4 l, AF_INET)
              | None => None
              end
          end in
        match parsed with
        | None => Err 1
        | Some (a, f) =>
            if negb want then Ok (a, 0)
            else
              let max_prefix := family_bit_length f in
              match p with
              | Some p =>
                  let prefix := Z.to_N (strtol p mod 2 ^ 32) in
                  if max_prefix <? prefix then Err 1 else Ok (a, prefix)
              | None => Ok (a, max_prefix)
              end
        end
  end.

(** network.c:92-106 loc_network_new_from_string *)
Definition network_new_from_string (s : option cstr) : outcome network :=
  do x <- address_parse true s;
  network_new (fst x) (snd x).

(** network.c:704-744 loc_network_reverse_pointer6, the loop: [i] is the number
    of nibbles done, [n] the number left. *)
Fixpoint reverse_loop (a : addr) (i n : nat) (buffer : cstr) : outcome cstr :=
  match n with
  | O => Ok buffer
  | S n' =>
      do x <- addr_get_nibble a i;
      reverse_loop a (S i) n' (hex x ++ DOT :: buffer)
  end.
(** "ip6.arpa." and "in-addr.arpa." *)
Definition ip6_arpa : cstr := [105; 112; 54; 46; 97; 114; 112; 97; 46].
Definition in_addr_arpa : cstr := [105; 110; 45; 97; 100; 100; 114; 46; 97; 114; 112; 97; 46].

(** ENOTSUP; both functions return NULL on errors. *)
Definition ENOTSUP : Z := 95.
Definition default_suffix (d : cstr) (suffix : option cstr) : cstr :=
  match suffix with None => d | Some s => s end.

Definition reverse_pointer6 (n : network) (suffix : option cstr) : outcome cstr :=
  let prefix := network_prefix n in
  if negb (prefix mod 4 =? 0) then Err ENOTSUP
  else
    do b <- reverse_loop (n_first n) 0 (N.to_nat (prefix / 4)) (default_suffix ip6_arpa suffix);
    if prefix <? 128 then Ok (STAR :: DOT :: b) else Ok b.

(** network.c:746-805 loc_network_reverse_pointer4. %d of an octet is the same
    as %u. *)
Definition reverse_pointer4 (n : network) (suffix : option cstr) : outcome cstr :=
  let prefix := network_prefix n in
  let a := n_first n in
  let s := default_suffix in_addr_arpa suffix in
  if negb (prefix mod 8 =? 0) then Err ENOTSUP
  else if prefix =? 32 then
    do o3 <- addr_get_octet a 3; do o2 <- addr_get_octet a 2;
    do o1 <- addr_get_octet a 1; do o0 <- addr_get_octet a 0;
    Ok (dec o3 ++ DOT :: dec o2 ++ DOT :: dec o1 ++ DOT :: dec o0 ++ DOT :: s)
  else if prefix =? 24 then
    do o2 <- addr_get_octet a 2; do o1 <- addr_get_octet a 1; do o0 <- addr_get_octet a 0;
    Ok (STAR :: DOT :: dec o2 ++ DOT :: dec o1 ++ DOT :: dec o0 ++ DOT :: s)
  else if prefix =? 16 then
    do o1 <- addr_get_octet a 1; do o0 <- addr_get_octet a 0;
    Ok (STAR :: DOT :: dec o1 ++ DOT :: dec o0 ++ DOT :: s)
  else if prefix =? 8 then
    do o0 <- addr_get_octet a 0;
    Ok (STAR :: DOT :: dec o0 ++ DOT :: s)
  else if prefix =? 0 then Ok (STAR :: DOT :: s)
  else Err 0.

(** network.c:807-820 loc_network_reverse_pointer *)
Definition reverse_pointer (n : network) (suffix : option cstr) : outcome cstr :=
  match n_family n with
  | AF_INET6 => reverse_pointer6 n suffix
  | AF_INET => reverse_pointer4 n suffix
  end.
