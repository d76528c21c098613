(** Model of the import of announcements, src/scripts/location-importer.in:1588-1720.

    The table is the list of its rows. The conversion of octets to text and of text to
    the types of PostgreSQL are parameters; [None] stands for an exception, which ends the
    command, and the transaction leaves the table as it was. *)
From Coq Require Import String.
From Coq Require Import NArith ZArith List Bool Arith.
From Verif Require Import Base ModelCountryCode ModelStringPool SpecText ModelImport ModelCompile.
Import ListNotations.
Open Scope N_scope.

(** location-importer.in:196-198. first_seen_at is not used. Time is counted in microseconds. *)
Record announcement := mkA { an_net : pnet; an_as : Z; an_seen : Z }.

(** ** Regular expressions
    The ways in which a class of characters that is repeated can match, in the order in
    which they are tried: what was matched and what is left. *)
Fixpoint lazy (class : N -> bool) (s : list N) : list (list N * list N) :=
  ([], s) ::
  match s with
  | c :: s' => if class c then map (fun x => (c :: fst x, snd x)) (lazy class s') else []
  | [] => []
  end.
Definition greedy (class : N -> bool) (s : list N) : list (list N * list N) := rev (lazy class s).
(** at least one *)
Definition some (l : list (list N * list N)) : list (list N * list N) :=
  filter (fun x => negb (length (fst x) =? 0)%nat) l.
(** the first way that leads to a match *)
Fixpoint first {A B} (f : A -> option B) (l : list A) : option B :=
  match l with
  | [] => None
  | x :: l' => match f x with Some y => Some y | None => first f l' end
  end.
(** . and \s and \d of octets; $ is at the end or in front of a newline that is the last octet *)
Definition dot (c : N) : bool := negb (c =? NEWLINE).
Definition white (c : N) : bool := (c =? 32) || ((9 <=? c) && (c <=? 13)).
Definition at_end (s : list N) : bool := match s with [] => true | [c] => c =? NEWLINE | _ => false end.
(** a text that is given *)
Fixpoint literal (t s : list N) : option (list N) :=
  match t, s with
  | [], _ => Some s
  | x :: t', y :: s' => if x =? y then literal t' s' else None
  | _, [] => None
  end.

(** 1654: .\]$ *)
Definition route_end (s : list N) : bool :=
  match s with c :: x :: s' => dot c && (x =? 93) && at_end s' | _ => false end.
(** (?:AS(.*?))?.\]$ *)
Definition route_as (s : list N) : option (option (list N)) :=
  match (match literal (txt "AS") s with
         | Some s' => first (fun x => if route_end (snd x) then Some (Some (fst x)) else None) (lazy dot s')
         | None => None
         end) with
  | Some a => Some a
  | None => if route_end s then Some None else None
  end.
(** ^\s(.+?)\s+.+?\[ *)
Definition route (s : list N) : option (list N * option (list N)) :=
  match s with
  | c :: s' =>
      if white c then
        first (fun n =>
          first (fun w =>
            first (fun x => match literal [91] (snd x) with
                            | Some s' => option_map (fun a => (fst n, a)) (route_as s')
                            | None => None
                            end) (some (lazy dot (snd w))))
            (some (greedy white (snd n)))) (some (lazy dot s'))
      else None
  | [] => None
  end.
(** 1707: \s+BGP\.as_path:.* (\d+) {\d+}$ *)
Definition as_path (s : list N) : option (list N) :=
  first (fun w =>
    match literal (txt "BGP.as_path:") (snd w) with
    | None => None
    | Some s' =>
        first (fun x =>
          match literal [32] (snd x) with
          | None => None
          | Some s' =>
              first (fun n =>
                match literal (txt " {") (snd n) with
                | None => None
                | Some s' =>
                    first (fun y => match literal (txt "}") (snd y) with
                                    | Some e => if at_end e then Some (fst n) else None
                                    | None => None
                                    end) (some (greedy is_digit s'))
                end) (some (greedy is_digit s'))
          end) (greedy dot s')
    end) (some (greedy white s)).

(** ** What Bird says *)
Section Bird.
  (** bytes.decode() *)
  Variable decode : list N -> option cstr.
  (** the types of the columns: inet and bigint *)
  Variable inet : cstr -> option pnet.
  Variable bigint : cstr -> option Z.
  (** CURRENT_TIMESTAMP *)
  Variable now : Z.
  (** the lines that _bird_cmd yields for a command (1722-1768; ModelImport.bird_cmd) *)
  Variable bird : cstr -> list (list N).

  (** 1694-1698, 1713-1717: INSERT ... ON CONFLICT (network) DO UPDATE SET *)
  Fixpoint upsert (n : pnet) (a : Z) (t : list announcement) : list announcement :=
    match t with
    | [] => [mkA n a now]
    | r :: t' => if pnet_eqb (an_net r) n then mkA n a now :: t' else r :: upsert n a t'
    end.
  Definition announce (network autnum : cstr) (t : list announcement) : option (list announcement) :=
    match inet network, bigint autnum with
    | Some n, Some a => Some (upsert n a t)
    | _, _ => None
    end.
  (** 1661-1698: the table and the aggregated networks *)
  Fixpoint routes (lines : list (list N)) (t : list announcement) (aggregated : list cstr)
    : option (list announcement * list cstr) :=
    match lines with
    | [] => Some (t, aggregated)
    | l :: lines' =>
        match route l with
        | None =>
            match literal (txt "Table") l, l with
            | None, _ :: _ => match decode l with Some _ => routes lines' t aggregated | None => None end
            | _, _ => routes lines' t aggregated
            end
        | Some (network, autnum) =>
            match decode network with
            | None => None
            | Some network =>
                match autnum with
                | None | Some [] => routes lines' t (aggregated ++ [network])
                | Some autnum =>
                    match decode autnum with
                    | None => None
                    | Some autnum =>
                        match announce network autnum t with
                        | Some t' => routes lines' t' aggregated
                        | None => None
                        end
                    end
                end
            end
        end
    end.
  (** 1701-1720 *)
  Fixpoint aggregates (networks : list cstr) (t : list announcement) : option (list announcement) :=
    match networks with
    | [] => Some t
    | n :: networks' =>
        match first as_path (bird (txt "show route " ++ n ++ txt " all")) with
        | None => aggregates networks' t
        | Some autnum =>
            (* digits can be decoded *)
            match announce n autnum t with
            | Some t' => aggregates networks' t'
            | None => None
            end
        end
    end.
  Definition from_bird (t : list announcement) : option (list announcement) :=
    match routes (bird (txt "show route")) t [] with
    | Some (t', networks) => aggregates networks t'
    | None => None
    end.

  (** ** 1595-1650: what is deleted, in this order *)
  Definition quad (a b c d len : N) : pnet := mkP 32 (((a * 256 + b) * 256 + c) * 256 + d) len.
  (** the first 16 bits of an IPv6 network *)
  Definition v6 (a len : N) : pnet := mkP 128 (a * 2 ^ 112) len.
  Definition in4 (n : pnet) (r : announcement) : bool := (p_bits (an_net r) =? 32) && contains n (an_net r).
  Definition public_as (a : Z) : bool :=
    ((1 <=? a) && (a <=? 23455) || (23457 <=? a) && (a <=? 64495) || (131072 <=? a) && (a <=? 4199999999))%Z.
  Definition two_weeks : Z := 14 * 24 * 60 * 60 * 1000000.
  Definition deletes : list (announcement -> bool) :=
    [ (fun r => pnet_eqb (an_net r) (v6 0 0) || pnet_eqb (an_net r) (quad 0 0 0 0 0));
      (fun r => (p_bits (an_net r) =? 128) && negb (contains (v6 8192 3) (an_net r)));
      in4 (quad 0 0 0 0 8);
      in4 (quad 127 0 0 0 8);
      in4 (quad 10 0 0 0 8);
      in4 (quad 172 16 0 0 12);
      in4 (quad 192 168 0 0 16);
      in4 (quad 192 0 0 0 24);
      in4 (quad 192 0 2 0 24);
      in4 (quad 198 18 0 0 15);
      in4 (quad 198 51 100 0 24);
      in4 (quad 203 0 113 0 24);
      in4 (quad 100 64 0 0 10);
      in4 (quad 169 254 0 0 16);
      in4 (quad 192 88 99 0 24);
      (fun r => (p_bits (an_net r) =? 128) && contains (v6 8194 16) (an_net r));
      in4 (quad 224 0 0 0 4);
      in4 (quad 240 0 0 0 4);
      (fun r => (p_bits (an_net r) =? 128) && (48 <? p_len (an_net r)));
      (fun r => (p_bits (an_net r) =? 32) && (24 <? p_len (an_net r)));
      (fun r => negb (public_as (an_as r)));
      (fun r => (an_seen r <=? now - two_weeks)%Z) ].
  Definition purge (t : list announcement) : list announcement :=
    fold_left (fun t d => filter (fun r => negb (d r)) t) deletes t.

  (** 1588-1650 handle_update_announcements *)
  Definition update_announcements (server : cstr) (t : list announcement) : option (list announcement) :=
    option_map purge (if starts_with 47 server then from_bird t else Some t).
End Bird.
