(** What is claimed about the import of announcements *)
From Coq Require Import String.
From Coq Require Import NArith ZArith List Bool.
From Verif Require Import Base ModelCountryCode SpecText ModelImport SpecImport ModelAnnounce.
Import ListNotations.
Open Scope N_scope.

(** ** What belongs in the global routing table *)
Definition ip (a b c d : N) : N := a * 16777216 + b * 65536 + c * 256 + d.
(** first and last address of the IPv4 address space that is not routed *)
Definition reserved : list (N * N) :=
  [ (ip 0 0 0 0, ip 0 255 255 255); (ip 10 0 0 0, ip 10 255 255 255); (ip 100 64 0 0, ip 100 127 255 255);
    (ip 127 0 0 0, ip 127 255 255 255); (ip 169 254 0 0, ip 169 254 255 255); (ip 172 16 0 0, ip 172 31 255 255);
    (ip 192 0 0 0, ip 192 0 0 255); (ip 192 0 2 0, ip 192 0 2 255); (ip 192 88 99 0, ip 192 88 99 255);
    (ip 192 168 0 0, ip 192 168 255 255); (ip 198 18 0 0, ip 198 19 255 255); (ip 198 51 100 0, ip 198 51 100 255);
    (ip 203 0 113 0, ip 203 0 113 255); (ip 224 0 0 0, ip 239 255 255 255); (ip 240 0 0 0, ip 255 255 255 255) ].
(** all addresses of a network are from [f] to [l] *)
Definition between (f l : N) (n : pnet) : Prop := forall v, holds n v -> f <= v <= l.
Definition routable (n : pnet) : Prop :=
  (p_bits n = 32 /\ 256 <= size_of n < 2 ^ 32 /\ forall f l, In (f, l) reserved -> ~ between f l n) \/
  (p_bits n = 128 /\ 2 ^ 80 <= size_of n /\ between (0x2000 * 2 ^ 112) (0x4000 * 2 ^ 112 - 1) n /\
   ~ between (0x2002 * 2 ^ 112) (0x2003 * 2 ^ 112 - 1) n).
Definition public (a : Z) : Prop := (1 <= a < 4200000000 /\ a <> 23456 /\ ~ 64496 <= a <= 131071)%Z.
(** seen in the last 14 days *)
Definition recent (now seen : Z) : Prop := (now - seen < 14 * 86400 * 1000000)%Z.
Definition kept (now : Z) (r : announcement) : Prop :=
  routable (an_net r) /\ public (an_as r) /\ recent now (an_seen r).

(** ** Lines of Bird *)
Definition blank (s : list N) : Prop := s <> [] /\ Forall (fun c => c = 32 \/ 9 <= c <= 13) s.
(** a piece of a line without white space *)
Definition word (s : list N) : Prop := s <> [] /\ Forall (fun c => ~ (c = 32 \/ 9 <= c <= 13)) s.
Definition in_line (s : list N) : Prop := ~ In NEWLINE s.
Definition number (s : list N) : Prop := s <> [] /\ Forall digit s.
Definition eol (s : list N) : Prop := s = [] \/ s = [NEWLINE].
(** the part of a line between the network and the AS, such as "unicast [peer 12:00] * (100) " *)
Definition details (m : list N) : Prop :=
  in_line m /\ (exists c m', m = c :: m' /\ ~ (c = 32 \/ 9 <= c <= 13)) /\
  forall x y, m <> x ++ txt "[AS" ++ y.
(** the end, such as "[AS1299i]": the letter is how the route came to be known *)
Inductive tells (l : list N) : option (list N * option (list N)) -> Prop :=
  | tells_as : forall w n ws m a x nl, l = w :: n ++ ws ++ m ++ txt "[AS" ++ a ++ [x; 93] ++ nl ->
      blank [w] -> word n -> blank ws -> details m -> in_line a -> x <> NEWLINE -> eol nl -> tells l (Some (n, Some a))
  | tells_none : forall w n ws m x nl, l = w :: n ++ ws ++ m ++ [91; x; 93] ++ nl ->
      blank [w] -> word n -> blank ws -> details m -> x <> NEWLINE -> eol nl -> tells l (Some (n, None))
  | tells_other : (forall w l', l = w :: l' -> ~ blank [w]) \/ (forall l' nl, eol nl -> l <> l' ++ 93 :: nl) -> tells l None.
(** the origin is the last AS that is not in the set at the end *)
Definition path (l a : list N) : Prop :=
  exists ws p s nl, l = ws ++ txt "BGP.as_path:" ++ p ++ [32] ++ a ++ txt " {" ++ s ++ txt "}" ++ nl /\
    blank ws /\ in_line p /\ number a /\ number s /\ eol nl.
(** the first path decides *)
Definition origin (lines : list (list N)) (x : option (list N)) : Prop :=
  match x with
  | Some a => exists l1 l l2, lines = l1 ++ l :: l2 /\ path l a /\ forall k b, In k l1 -> ~ path k b
  | None => forall k b, In k lines -> ~ path k b
  end.

(** ** Changes of the table *)
(** the last value given for a network *)
Definition newest (changes : list (pnet * Z)) (n : pnet) (a : Z) : Prop :=
  exists l1 l2, changes = l1 ++ (n, a) :: l2 /\ ~ In n (map fst l2).
Definition changed (now : Z) (t : list announcement) (changes : list (pnet * Z)) (r : announcement) : Prop :=
  (newest changes (an_net r) (an_as r) /\ an_seen r = now) \/ (In r t /\ ~ In (an_net r) (map fst changes)).

Section Readings.
  Variable decode : list N -> option cstr.
  Variable inet : cstr -> option pnet.
  Variable bigint : cstr -> option Z.
  Variable bird : cstr -> list (list N).
  (** what a line of the routing table comes to: a change, an aggregated network, nothing *)
  Inductive reads (l : list N) : list (pnet * Z) -> list cstr -> Prop :=
    | reads_route : forall n a n' a' net asn, tells l (Some (n, Some a)) -> a <> [] ->
        decode n = Some n' -> decode a = Some a' -> inet n' = Some net -> bigint a' = Some asn -> reads l [(net, asn)] []
    | reads_aggregate : forall n a n', tells l (Some (n, a)) -> a = None \/ a = Some [] -> decode n = Some n' -> reads l [] [n']
    | reads_other : tells l None -> decode l <> None -> reads l [] [].
  Inductive looks_up (n : cstr) : list (pnet * Z) -> Prop :=
    | looks_up_found : forall a net asn, origin (bird (txt "show route " ++ n ++ txt " all")) (Some a) ->
        inet n = Some net -> bigint a = Some asn -> looks_up n [(net, asn)]
    | looks_up_none : origin (bird (txt "show route " ++ n ++ txt " all")) None -> looks_up n [].
  (** all changes, those of the aggregated networks at the end *)
  Definition all_changes (changes : list (pnet * Z)) : Prop :=
    exists cs aggs more,
      Forall2 (fun l x => reads l (fst x) (snd x)) (bird (txt "show route")) (combine cs aggs) /\
      length cs = length aggs /\
      Forall2 looks_up (concat aggs) more /\ changes = concat cs ++ concat more.
End Readings.
