(** What is claimed about the importer, in terms of addresses *)
From Coq Require Import NArith ZArith List Bool.
From Verif Require Import Base ModelCountryCode ModelImport.
Import ListNotations.
Open Scope N_scope.

(** ** Networks as sets of addresses *)
Definition first_of (n : pnet) : N := p_base n.
Definition size_of (n : pnet) : N := 2 ^ (p_bits n - p_len n).
Definition holds (n : pnet) (v : N) : Prop := p_base n <= v < p_base n + size_of n.
(** a network of one of the two families *)
Definition net_wf (n : pnet) : Prop :=
  (p_bits n = 32 \/ p_bits n = 128) /\ p_len n <= p_bits n /\ p_base n mod size_of n = 0 /\ p_base n < 2 ^ p_bits n.

(** ** Lines made of fields *)
Fixpoint joined (sep : N) (l : list cstr) : cstr :=
  match l with
  | [] => []
  | [x] => x
  | x :: l' => x ++ sep :: joined sep l'
  end.
Definition plain (sep : N) (s : cstr) : Prop := ~ In sep s.

(** ** Tables *)
(** one row for a network *)
Definition keyed (t : list row) : Prop := forall r q, In r t -> In q t -> r_net r = r_net q -> r = q.
(** the rows found in [t], and those of [rir] that are about other networks *)
Definition either (t rir : list row) (r : row) : Prop :=
  In r t \/ (In r rir /\ forall q, In q t -> r_net q <> r_net r).
(** the row with the smallest network around an address *)
Definition decides (T : row -> Prop) (bits v : N) (r : row) : Prop :=
  T r /\ p_bits (r_net r) = bits /\ holds (r_net r) v /\
  forall q, T q -> p_bits (r_net q) = bits -> holds (r_net q) v -> p_len (r_net q) <= p_len (r_net r).
Definition located (T : row -> Prop) (bits v : N) (c : option cstr) : Prop :=
  exists r, decides T bits v r /\ r_country r = c.
(** all addresses of [a] are in [b], which is larger *)
Definition within (a b : pnet) : Prop :=
  p_bits a = p_bits b /\ p_len b < p_len a /\ forall v, holds a v -> holds b v.
(** the smallest network around another one *)
Definition around (T : row -> Prop) (n : pnet) (r : row) : Prop :=
  T r /\ within n (r_net r) /\ forall q, T q -> within n (r_net q) -> p_len (r_net q) <= p_len (r_net r).

(** ** Answers of Bird *)
Definition answer (lines : list (list N)) : list N := concat (map (fun l => l ++ [NEWLINE]) lines).
Definition digit (c : N) : Prop := 48 <= c <= 57.
(** a line that starts with a code: four digits and a space or a dash *)
Definition coded (l : list N) (code : N) (rest : list N) : Prop :=
  exists a b c d x, l = a :: b :: c :: d :: x :: rest /\ digit a /\ digit b /\ digit c /\ digit d /\
    (x = 32 \/ x = 45) /\ code + 53328 = 1000 * a + 100 * b + 10 * c + d.
(** what the caller gets for a line *)
Inductive gives (l : list N) : list (list N) -> Prop :=
  | gives_hello : forall rest, coded l 1 rest -> gives l []
  | gives_rest : forall code rest, coded l code rest -> code <> 0 -> code <> 1 -> gives l [rest ++ [NEWLINE]]
  | gives_line : (forall code rest, ~ coded l code rest) -> gives l [l ++ [NEWLINE]].

(** ** Blocks of lines *)
Section Blocks.
  Variable space : N -> bool.
  Variable decode : list N -> cstr.
  Inductive kind := Ignored | Blank | Content (s : cstr).
  (** comments; lines with nothing but white space; others, without comment and white space at the end *)
  Definition kind_of (l : list N) : kind :=
    if starts_with HASH l || starts_with PERCENT l then Ignored
    else match partition HASH (decode l) with
         | (x, c) => match rstrip space x, c with
                     | (_ :: _) as s, _ => Content s
                     | [], Some (_ :: _) => Ignored
                     | [], _ => Blank
                     end
         end.
  Definition content (lines : list (list N)) : list cstr :=
    flat_map (fun l => match kind_of l with Content s => [s] | _ => [] end) lines.
End Blocks.
