(** Model of src/resolv.c. The reply is in a buffer of PACKETSZ octets; every
    access to it is checked ([UB] outside the buffer). Pointers are positions in
    the buffer.

    dn_expand, strptime and timegm are not part of libloc. dn_expand is a
    parameter of the parser; [dn_expand] below is a model of the function of
    glibc (resolv/ns_name_unpack.c, resolv/ns_name_ntop.c). strptime and timegm
    are modelled after glibc (time/strptime_l.c, time/mktime.c) in the C locale. *)
From Coq Require Import String.
From Coq Require Import NArith ZArith List Bool Arith.
From Verif Require Import Base ModelCountryCode ModelText SpecText.
Import ListNotations.
Open Scope N_scope.

(** resolv.c:59, arpa/nameser.h *)
Definition PACKETSZ : nat := 512.
Definition HFIXEDSZ : nat := 12. (* sizeof(HEADER) *)
Definition T_CNAME : N := 5.
Definition T_TXT : N := 16.

Definition get (buf : list N) (i : nat) : outcome N :=
  match nth_error buf i with Some v => Ok v | None => UB end.
Definition put (buf : list N) (i : nat) (v : N) : outcome (list N) :=
  if (i <? length buf)%nat then Ok (upd buf i v) else UB.

(** GETSHORT *)
Definition get16 (buf : list N) (i : nat) : outcome N :=
  do a <- get buf i; do b <- get buf (i + 1); Ok (a * 256 + b).
(** GETLONG *)
Definition get32 (buf : list N) (i : nat) : outcome N :=
  do a <- get16 buf i; do b <- get16 buf (i + 2); Ok (a * 65536 + b).

(** [n] octets from position [i] (memcpy) *)
Fixpoint take (buf : list N) (i n : nat) : outcome (list N) :=
  match n with
  | O => Ok []
  | S n' => do a <- get buf i; do l <- take buf (i + 1) n'; Ok (a :: l)
  end.

(** glibc ns_name_unpack(answer, end, src, tmp, sizeof(tmp)): the labels of the
    name at [s] and the number of octets it occupies there. [e] is the end of the
    message, [start] is src, [dst] the number of octets written to tmp (255
    octets), [len] the result of the first indirection. *)
Definition NS_MAXCDNAME : nat := 255.
Fixpoint unpack (buf : list N) (e start : nat) (s : nat) (dst : nat) (len : option nat) (checked : nat)
    (fuel : nat) {struct fuel} : outcome (nat * list (list N)) :=
  match fuel with
  | O => Fuel
  | S fuel' =>
      do n <- get buf s;
      let s := (s + 1)%nat in
      if n =? 0 then Ok (match len with Some l => l | None => s - start end, [])%nat
      else if n <? 64 then
        let n := N.to_nat n in
        if ((NS_MAXCDNAME <=? dst + n + 1) || (e <=? s + n))%nat then Err (-1)
        else do label <- take buf s n;
             do (l, labels) <- unpack buf e start (s + n) (dst + 1 + n) len (checked + n + 1) fuel';
             Ok (l, label :: labels)
      else if n <? 192 then Err (-1)
      else if (e <=? s)%nat then Err (-1)
      else do o <- get buf s;
           let len := match len with Some l => Some l | None => Some (s - start + 1)%nat end in
           let target := N.to_nat ((n - 192) * 256 + o) in
           if (e <=? target)%nat then Err (-1)
           else if (e <=? checked + 2)%nat then Err (-1)
           else unpack buf e start target dst len (checked + 2) fuel'
  end.

(** glibc ns_name_ntop: the text of the labels, with special characters (double
    quote, '.', ';', '\', '(', ')', '@', '$') quoted and others than the printable
    ones in decimal; fails if it does not fit. [room] is sizeof(host). *)
Definition special (c : N) : bool := existsb (N.eqb c) [34; 46; 59; 92; 40; 41; 64; 36].
Definition quoted (c : N) : list N :=
  if special c then [92; c]
  else if (32 <? c) && (c <? 127) then [c]
  else [92; 48 + c / 100; 48 + (c mod 100) / 10; 48 + c mod 10].
Fixpoint ntop_chars (room : nat) (out : list N) (l : list N) : outcome (list N) :=
  match l with
  | [] => Ok out
  | c :: l' =>
      let q := quoted c in
      if (room <=? length out + (length q - 1))%nat then Err (-1) else ntop_chars room (out ++ q) l'
  end.
Fixpoint ntop_labels (room : nat) (out : list N) (labels : list (list N)) : outcome (list N) :=
  match labels with
  | [] =>
      let out := match out with [] => [DOT] | _ => out end in
      if (room <=? length out)%nat then Err (-1) else Ok out
  | l :: labels' =>
      let first := match out with [] => true | _ => false end in
      if negb first && (room <=? length out)%nat then Err (-1)
      else let out := if first then out else out ++ [DOT] in
           if (room <=? length out + length l)%nat then Err (-1)
           else do out <- ntop_chars room out l; ntop_labels room out labels'
  end.

(** glibc dn_expand(answer, end, src, host, sizeof(host)) with host[128]: the
    number of octets of the name at [src]; what is written to host is not used by
    the caller. Every label needs two octets of tmp and every indirection two of
    [checked], so that the loop runs less than 128 + e times. *)
Definition dn_expand (buf : list N) (e src : nat) : outcome nat :=
  if (e <=? src)%nat then Err (-1)
  else do (n, labels) <- unpack buf e src src 0 None 0 (e + 130);
       do host <- ntop_labels 128 [] labels;
       Ok n.

(** resolv.c:99-128: walk through CNAMEs, returns type, size and the position of
    the data. Every record has more than 10 octets. [end - 10] is computed in C
    after dn_expand succeeded, hence end > answer + 12. *)
Section Parser.
  Variable expand : list N -> nat -> nat -> outcome nat.

  Fixpoint walk (fuel : nat) (buf : list N) (e p : nat) : outcome (N * nat * nat) :=
    match fuel with
    | O => Fuel
    | S fuel' =>
        do len <- expand buf e p;
        let p := (p + len)%nat in
        if (e <? p + 10)%nat then Err (-1)
        else do type <- get16 buf p;
             do ttl <- get32 buf (p + 4);
             do size <- get16 buf (p + 8);
             let p := (p + 10)%nat in
             let size := N.to_nat size in
             if (e <? p + size)%nat then Err (-1)
             else if type =? T_CNAME then walk fuel' buf e (p + size)
             else Ok (type, size, p)
    end.

  (** resolv.c:71-138: the position of the string and its length *)
  Definition find_txt (buf : list N) (e : nat) : outcome (nat * nat) :=
    do len <- expand buf e HFIXEDSZ;
    let p := (HFIXEDSZ + len)%nat in
    if (e <? p + 4)%nat then Err (-1)
    else do type <- get16 buf p;
         if negb (type =? T_TXT) then Err (-1)
         else do (type, size, p) <- walk (S (length buf)) buf e (p + 4);
              if negb (type =? T_TXT) then Err (-1)
              else if (size =? 0)%nat then Err (-1)
              else do len <- get buf p;
                   let len := N.to_nat len in
                   if ((size <=? len) || (len =? 0))%nat then Err (-1)
                   else Ok (p + 1, len)%nat.
End Parser.

(** The characters from position [i] to the next NUL; [UB] if there is none in
    the buffer. *)
Fixpoint cstring (l : list N) : outcome cstr :=
  match l with
  | [] => UB
  | c :: l' => if c =? 0 then Ok [] else do s <- cstring l'; Ok (c :: s)
  end.

(** strptime *)
Definition isspace (c : N) : bool := (c =? 32) || ((9 <=? c) && (c <=? 13)).
Definition lower (c : N) : N := if (65 <=? c) && (c <=? 90) then c + 32 else c.
Fixpoint spaces (s : cstr) : cstr :=
  match s with
  | c :: s' => if isspace c then spaces s' else s
  | [] => []
  end.
(** match_string: strncasecmp with the whole name *)
Fixpoint match_string (name s : cstr) : option cstr :=
  match name, s with
  | [], _ => Some s
  | a :: name', b :: s' => if lower a =? lower b then match_string name' s' else None
  | _ :: _, [] => None
  end.
(** literal characters of the format *)
Fixpoint match_chars (f s : cstr) : option cstr :=
  match f, s with
  | [], _ => Some s
  | a :: f', b :: s' => if a =? b then match_chars f' s' else None
  | _ :: _, [] => None
  end.
(** the full name is tried before the abbreviation *)
Fixpoint match_names (names : list cstr) (i : N) (s : cstr) : option (N * cstr) :=
  match names with
  | [] => None
  | name :: names' =>
      match match_string name s with
      | Some r => Some (i, r)
      | None =>
          match match_string (firstn 3 name) s with
          | Some r => Some (i, r)
          | None => match_names names' (i + 1) s
          end
      end
  end.
Definition weekdays : list cstr := map txt
  ["Sunday"; "Monday"; "Tuesday"; "Wednesday"; "Thursday"; "Friday"; "Saturday"]%string.
Definition months : list cstr := map txt
  ["January"; "February"; "March"; "April"; "May"; "June"; "July"; "August"; "September"; "October"; "November";
   "December"]%string.

(** get_number(from, to, n): white space, then up to [n] digits *)
Fixpoint number_loop (to : N) (n : nat) (val : N) (s : cstr) : N * cstr :=
  match n, s with
  | S n', c :: s' =>
      if (val * 10 <=? to) && is_digit c then number_loop to n' (val * 10 + (c - 48)) s' else (val, s)
  | _, _ => (val, s)
  end.
Definition get_number (from to : N) (n : nat) (s : cstr) : option (N * cstr) :=
  match spaces s with
  | c :: s' =>
      if is_digit c then
        let (v, r) := number_loop to (n - 1) (c - 48) s' in
        if (from <=? v) && (v <=? to) then Some (v, r) else None
      else None
  | [] => None
  end.

Definition obind {A B} (x : option A) (f : A -> option B) : option B :=
  match x with Some v => f v | None => None end.
Notation "'try' x <- m ; f" := (obind m (fun x => f)) (at level 200, x pattern, m at level 100, f at level 200).

Record tm := mkTm { tm_sec : N; tm_min : N; tm_hour : N; tm_mday : N; tm_mon : N; tm_year : Z }.

(** "%a, %d %b %Y %H:%M:%S GMT" *)
Definition strptime (s : cstr) : option (tm * cstr) :=
  try (_, s) <- match_names weekdays 0 s;
  try s <- match_chars (txt ",") s;
  try (mday, s) <- get_number 1 31 2 (spaces s);
  try (mon, s) <- match_names months 0 (spaces s);
  try (year, s) <- get_number 0 9999 4 (spaces s);
  try (hour, s) <- get_number 0 23 2 (spaces s);
  try s <- match_chars (txt ":") s;
  try (min, s) <- get_number 0 59 2 s;
  try s <- match_chars (txt ":") s;
  try (sec, s) <- get_number 0 61 2 s;
  try s <- match_chars (txt "GMT") (spaces s);
  Some (mkTm sec min hour mday mon (Z.of_N year - 1900), s).

(** timegm: glibc's ydhms_diff to the epoch (year 70 after 1900). [mon_yday] is
    the table __mon_yday. Shifts are arithmetic. *)
Definition mon_yday (leap : bool) : list Z :=
  if leap then [0; 31; 60; 91; 121; 152; 182; 213; 244; 274; 305; 335]%Z
  else [0; 31; 59; 90; 120; 151; 181; 212; 243; 273; 304; 334]%Z.
Definition leapyear (year : Z) : bool :=
  ((year mod 4 =? 0) && (negb (year mod 100 =? 0) || (year mod 400 =? 0)))%Z.
Definition timegm (t : tm) : Z :=
  (let year := tm_year t in
   let yday := nth (N.to_nat (tm_mon t)) (mon_yday (leapyear (year + 1900))) 0 - 1 + Z.of_N (tm_mday t) in
   let a4 := year / 4 + 475 - (if year mod 4 =? 0 then 1 else 0) in
   let b4 := 70 / 4 + 475 - 0 in
   let floor25 a := Z.quot (a + (if a <? 0 then 1 else 0)) 25 - (if a <? 0 then 1 else 0) in
   let a100 := floor25 a4 in
   let b100 := floor25 b4 in
   let leap_days := (a4 - b4) - (a100 - b100) + (a100 / 4 - b100 / 4) in
   let days := 365 * (year - 70) + yday + leap_days in
   60 * (60 * (24 * days + Z.of_N (tm_hour t)) + Z.of_N (tm_min t)) + Z.of_N (tm_sec t))%Z.

(** resolv.c:27-44 parse_timestamp: the value stored in *t and the return value *)
Definition parse_timestamp (s : cstr) : Z * Z :=
  match strptime s with
  | Some (ts, []) => (timegm ts, 0%Z)
  | _ => (0%Z, (-1)%Z)
  end.

(** resolv.c:46-150 loc_discover_latest_version: [r] is what res_init returns,
    [len] what res_query returns after storing the reply in [answer]. The result
    is the return value and the value stored in *t, if any. *)
Definition discover (expand : list N -> nat -> nat -> outcome nat) (r len : Z) (answer : list N) :
    outcome (Z * option Z) :=
  if negb (r =? 0)%Z then Ok (r, None)
  else if (len <? 0)%Z || (Z.of_nat PACKETSZ <? len)%Z then Ok ((-1)%Z, None)
  else match find_txt expand answer (Z.to_nat len) with
       | Err c => Ok (c, None)
       | UB => UB
       | Fuel => Fuel
       | Ok (p, n) =>
           do buf <- put answer (p + n) 0;
           do s <- cstring (skipn p buf);
           let (t, r) := parse_timestamp s in
           Ok (r, Some t)
       end.
