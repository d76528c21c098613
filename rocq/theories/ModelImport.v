(** Model of parts of src/scripts/location-importer.in: reading of blocks, of delegation
    lines and of address ranges, the selection of networks, and the connection to Bird.

    Functions of Python's standard library that are not modelled are parameters. Text is a
    list of characters. An exception that the code does not catch ends the import. *)
From Coq Require Import String.
From Coq Require Import NArith ZArith List Bool Arith.
From Verif Require Import Base ModelCountryCode ModelStringPool SpecText.
Import ListNotations.
Open Scope N_scope.

(** ipaddress.IPv4Network (32 bits) and IPv6Network (128 bits) *)
Record pnet := mkP { p_bits : N; p_base : N; p_len : N }.
Definition pnet_eqb (a b : pnet) : bool := (p_bits a =? p_bits b) && (p_base a =? p_base b) && (p_len a =? p_len b).

(** ** Text *)
Definition BAR : N := 124.
Definition HASH : N := 35.
Definition PERCENT : N := 37.
Definition NEWLINE : N := 10.
(** str.partition: the part before the first separator and the one behind it, if there is one *)
Fixpoint partition (sep : N) (s : cstr) : cstr * option cstr :=
  match s with
  | [] => ([], None)
  | c :: s' =>
      if c =? sep then ([], Some s')
      else let (x, y) := partition sep s' in (c :: x, y)
  end.
(** str.split(sep) *)
Fixpoint split (sep : N) (s : cstr) : list cstr :=
  match s with
  | [] => [[]]
  | c :: s' =>
      if c =? sep then [] :: split sep s'
      else match split sep s' with
           | x :: l => (c :: x) :: l
           | [] => [[c]] (* not reached *)
           end
  end.
Definition starts_with (c : N) (s : cstr) : bool := match s with x :: _ => x =? c | [] => false end.
Definition truthy (s : option cstr) : bool := match s with Some (_ :: _) => true | _ => false end.

Section Spaces.
  (** str.isspace of a character *)
  Variable space : N -> bool.
  Fixpoint lstrip (s : cstr) : cstr := match s with c :: s' => if space c then lstrip s' else s | [] => [] end.
  (** the end is white space if all of the rest is *)
  Fixpoint rstrip (s : cstr) : cstr :=
    match s with
    | [] => []
    | c :: s' => match rstrip s' with [] => if space c then [] else [c] | r => c :: r end
    end.
  Definition strip (s : cstr) : cstr := lstrip (rstrip s).

  (** location-importer.in:2528-2569 iterate_over_blocks: [decode] is the conversion from octets.
      [block] is the block that is being collected. *)
  Variable decode : list N -> cstr.
  Fixpoint blocks_loop (lines : list (list N)) (block : list cstr) : list (list cstr) :=
    match lines with
    | [] => match block with [] => [] | _ => [block] end
    | l :: lines' =>
        if starts_with HASH l || starts_with PERCENT l then blocks_loop lines' block
        else
          let (text, comment) := partition HASH (decode l) in
          let text := rstrip text in
          if truthy comment && match text with [] => true | _ => false end then blocks_loop lines' block
          else
            match text with
            | _ :: _ => blocks_loop lines' (block ++ [text])
            | [] => match block with
                    | [] => blocks_loop lines' []
                    | _ => block :: blocks_loop lines' []
                    end
            end
    end.
  Definition iterate_over_blocks (lines : list (list N)) : list (list cstr) := blocks_loop lines [].
End Spaces.

(** ** Networks *)
(** ipaddress.ip_network((address, prefix), strict=False); a ValueError is [None] *)
Definition ip_network (bits a : N) (prefix : Z) : option pnet :=
  if (prefix <? 0)%Z || (Z.of_N bits <? prefix)%Z then None
  else let len := Z.to_N prefix in Some (mkP bits (a - a mod 2 ^ (bits - len)) len).

(** What becomes of a line: a row for the table, nothing, or an exception *)
Inductive imported (A : Type) := Row (r : A) | Skipped | Raised.
Arguments Row {A} r.
Arguments Skipped {A}.
Arguments Raised {A}.

Section Parse.
  (** int(): [None] for a ValueError *)
  Variable py_int : cstr -> option Z.
  (** int(math.log(n, 2)): [None] for the ValueError raised for numbers that are not positive *)
  Variable py_log2 : Z -> option Z.
  (** the address in front of the slash in ip_network(): its number of bits and its value *)
  Variable py_addr : cstr -> option (N * N).
  Variables is_global is_unspecified : pnet -> bool.

  (** location-importer.in:1163-1212 _check_parsed_network *)
  Definition check_parsed_network (n : pnet) : bool :=
    if negb (is_global n) then false
    else if is_unspecified n then false
    else if (p_bits n =? 128) && (p_len n <? 10) then false
    else if (p_bits n =? 32) && (p_len n <? 7) then false
    else true.

  (** location-importer.in:1498-1586 _parse_line; the row is the network and the country *)
  Definition parse_line (valid : list cstr) (line : cstr) : imported (pnet * cstr) :=
    if starts_with 50 line || starts_with HASH line then Skipped
    else
      match partition BAR line with
      | (registry, Some line) =>
          match partition BAR line with
          | (cc, Some line) =>
              match partition BAR line with
              | (type, Some line) =>
                  if negb (cstr_eqb type (txt "ipv6") || cstr_eqb type (txt "ipv4")) then Skipped (* also asn *)
                  else if (length cc =? 0)%nat || cstr_eqb cc (txt "*") then Skipped
                  else if negb (length valid =? 0)%nat && negb (existsb (cstr_eqb cc) valid) then Skipped
                  else
                    let fields := match split BAR line with
                                  | [a; p; _; s; _] => Some (a, p, s)
                                  | [a; p; _; s] => Some (a, p, s)
                                  | _ => None
                                  end in
                    match fields with
                    | None => Skipped
                    | Some (address, prefix, status) =>
                        if negb (cstr_eqb status (txt "assigned") || cstr_eqb status (txt "allocated")) then Skipped
                        else
                          match py_int prefix with
                          | None => Skipped
                          | Some prefix =>
                              let prefix := if cstr_eqb type (txt "ipv4")
                                            then match py_log2 prefix with Some l => Some (32 - l)%Z | None => None end
                                            else Some prefix in
                              match prefix with
                              | None => Raised
                              | Some prefix =>
                                  match py_addr address with
                                  | None => Skipped
                                  | Some (bits, a) =>
                                      match ip_network bits a prefix with
                                      | None => Skipped
                                      | Some n => if check_parsed_network n then Row (n, cc) else Skipped
                                      end
                                  end
                              end
                          end
                    end
              | _ => Skipped
              end
          | _ => Skipped
          end
      | _ => Skipped
      end.

  (** ipaddress.summarize_address_range, _count_righthand_zero_bits *)
  Definition zero_bits (bits n : N) : N := if n =? 0 then bits else N.min bits (N.size (N.ldiff (n - 1) n)).
  Fixpoint summarize_range (fuel : nat) (bits first last : N) : option (list pnet) :=
    match fuel with
    | O => None
    | S fuel' =>
        if last <? first then Some []
        else
          let nbits := N.min (zero_bits bits first) (N.size (last - first + 1) - 1) in
          let n := mkP bits first (bits - nbits) in
          let next := first + 2 ^ nbits in
          if next - 1 =? 2 ^ bits - 1 then Some [n]
          else match summarize_range fuel' bits next last with
               | Some l => Some (n :: l)
               | None => None
               end
    end.
  (** At most 2 * 128 + 1 networks are needed. *)
  Definition summarize_address_range (first last : N * N) : imported (list pnet) :=
    if negb (fst first =? fst last) then Raised (* TypeError *)
    else if snd last <? snd first then Raised (* ValueError *)
    else match summarize_range 258 (fst first) (snd first) (snd last) with
         | Some l => Row l
         | None => Raised (* not reached *)
         end.

  (** location-importer.in:1326-1369, the value of an inetnum attribute. [py_net] is
      ip_network() of a text, strict=False. *)
  Variable space : N -> bool.
  Variable py_net : cstr -> option pnet.
  Definition DASH : N := 45.
  Definition dots (s : cstr) : nat := length (filter (N.eqb 46) s).
  Definition inetnum (val : cstr) : imported (list pnet) :=
    let (s, e) := partition DASH val in
    let start := rstrip space s in
    match start, e with
    | _ :: _, None =>
        let of_net (n : pnet) :=
          summarize_address_range (p_bits n, p_base n) (p_bits n, p_base n + 2 ^ (p_bits n - p_len n) - 1) in
        match py_net start with
        | Some n => of_net n
        | None =>
            match split 47 start with
            | x :: rest =>
                if negb ((dots x =? 1) || (dots x =? 2))%nat then Skipped
                else match rest with
                     | [] => Raised (* IndexError *)
                     | y :: _ =>
                         match py_net (x ++ (if (dots x =? 1)%nat then txt ".0.0/" else txt ".0/") ++ y) with
                         | Some n => of_net n
                         | None => Skipped
                         end
                     end
            | [] => Skipped (* not reached *)
            end
        end
    | _, _ =>
        match py_addr start, py_addr (strip space (match e with Some e => e | None => [] end)) with
        | Some a, Some b => summarize_address_range a b
        | _, _ => Skipped
        end
    end.
End Parse.

(** ** Selection of networks *)
(** A row of _rirdata or networks: network and country (NULL is [None]). A network occurs
    once in a table. *)
Record row := mkRow { r_net : pnet; r_country : option cstr }.

(** a << b in PostgreSQL *)
Definition inside (a b : pnet) : bool :=
  (p_bits a =? p_bits b) && (p_len b <? p_len a) &&
  (p_base a / 2 ^ (p_bits b - p_len b) =? p_base b / 2 ^ (p_bits b - p_len b)).

(** location-importer.in:1025-1043: LEFT JOIN and DISTINCT ON, the smallest network around *)
Fixpoint parent (t : list row) (n : pnet) : option row :=
  match t with
  | [] => None
  | r :: t' =>
      let p := parent t' n in
      if inside n (r_net r) then
        match p with
        | Some q => if p_len (r_net q) <? p_len (r_net r) then Some r else p
        | None => Some r
        end
      else p
  end.
(** 1053-1056: country <> parent_country is NULL, that is not true, if the country is NULL *)
Definition provides (t : list row) (c : row) : bool :=
  match parent t (r_net c) with
  | None => true
  | Some p =>
      match r_country p, r_country c with
      | None, _ => true
      | Some _, None => false
      | Some x, Some y => negb (cstr_eqb y x)
      end
  end.
(** INSERT ... ON CONFLICT DO NOTHING *)
Definition insert (t rows : list row) : list row :=
  fold_left (fun t r => if existsb (fun q => pnet_eqb (r_net q) (r_net r)) t then t else t ++ [r]) rows t.
Definition of_prefix (rir : list row) (bits p : N) : list row :=
  filter (fun r => (p_bits (r_net r) =? bits) && (p_len (r_net r) =? p)) rir.
(** SELECT DISTINCT masklen(network) ... ORDER BY masklen(network) *)
Definition prefixes (rir : list row) (bits : N) : list N :=
  filter (fun p => negb (length (of_prefix rir bits p) =? 0)%nat) (map N.of_nat (seq 0 (S (N.to_nat bits)))).
(** location-importer.in:955-1059: the largest networks are copied, others if they provide
    additional information *)
Definition copy_family (rir : list row) (t : list row) (bits : N) : list row :=
  match prefixes rir bits with
  | [] => t
  | p :: ps =>
      fold_left (fun t p => insert t (filter (provides t) (of_prefix rir bits p))) ps
        (insert t (of_prefix rir bits p))
  end.
Definition copy_networks (rir t : list row) : list row := copy_family rir (copy_family rir t 32) 128.

(** ** Bird *)
(** location-importer.in:1722-1768 _bird_cmd. What the caller gets: the lines, and whether
    the end was found; otherwise the function waits for more data. *)
Definition is_digit (c : N) : bool := (48 <=? c) && (c <=? 57).
(** the code of a status line and the rest of it *)
Definition status (line : list N) : option (N * list N) :=
  match line with
  | a :: b :: c :: d :: x :: rest =>
      if is_digit a && is_digit b && is_digit c && is_digit d && ((x =? 32) || (x =? 45)) then
        Some ((a - 48) * 1000 + (b - 48) * 100 + (c - 48) * 10 + (d - 48), rest)
      else None
  | _ => None
  end.
(** The inner loop: lines, and the rest of the buffer or the end. *)
Fixpoint bird_lines (fuel : nat) (buffer : list N) : list (list N) * option (list N) :=
  match fuel with
  | O => ([], Some buffer)
  | S fuel' =>
      match partition NEWLINE buffer with
      | ((_ :: _) as text, Some rest) =>
          let line := text ++ [NEWLINE] in
          match status line with
          | Some (code, line') =>
              if code =? 0 then ([], None)
              else if code =? 1 then bird_lines fuel' rest
              else let (l, r) := bird_lines fuel' rest in (line' :: l, r)
          | None => let (l, r) := bird_lines fuel' rest in (line :: l, r)
          end
      | _ => ([], Some buffer) (* no newline, or at position 0 *)
      end
  end.
(** [chunks] is what recv() returns *)
Fixpoint bird_cmd (buffer : list N) (chunks : list (list N)) : list (list N) * bool :=
  match chunks with
  | [] => ([], false)
  | c :: chunks' =>
      let buffer := buffer ++ c in
      match bird_lines (S (length buffer)) buffer with
      | (l, None) => (l, true)
      | (l, Some buffer) => let (l', r) := bird_cmd buffer chunks' in (l ++ l', r)
      end
  end.
