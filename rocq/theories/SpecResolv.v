(** Specification vocabulary for the DNS reply: dates, names and records as they
    are laid out in a message (RFC 1035). Nothing here uses the model. *)
From Coq Require Import String.
From Coq Require Import NArith ZArith List Bool Arith.
From Verif Require Import SpecText.
Import ListNotations.
Open Scope N_scope.

(** ** Dates *)
Definition leap (y : N) : bool := ((y mod 4 =? 0) && negb (y mod 100 =? 0)) || (y mod 400 =? 0).
Definition month_lengths (y : N) : list N :=
  [31; if leap y then 29 else 28; 31; 30; 31; 30; 31; 31; 30; 31; 30; 31].
Definition sum (l : list N) : N := fold_right N.add 0 l.

(** Days from January 1st of year 0 to January 1st of year [y]. *)
Fixpoint days_before (y : nat) : N :=
  match y with
  | O => 0
  | S y' => days_before y' + sum (month_lengths (N.of_nat y'))
  end.

(** Seconds from the epoch to the given second; months and days count from 1. *)
Definition seconds_since_epoch (y m d h mi s : N) : Z :=
  (((Z.of_N (days_before (N.to_nat y)) - Z.of_N (days_before (N.to_nat 1970))
     + Z.of_N (sum (firstn (N.to_nat (m - 1)) (month_lengths y)) + (d - 1))) * 24
    + Z.of_N h) * 60 + Z.of_N mi) * 60 + Z.of_N s.

Definition valid_date (y m d h mi s : N) : Prop :=
  y <= 9999 /\ 1 <= m <= 12 /\ 1 <= d <= nth (N.to_nat (m - 1)) (month_lengths y) 0 /\
  h < 24 /\ mi < 60 /\ s < 60.

Definition digit2 (v : N) : list N := [48 + v / 10; 48 + v mod 10].
Definition digit4 (v : N) : list N := [48 + v / 1000; 48 + v / 100 mod 10; 48 + v / 10 mod 10; 48 + v mod 10].
Definition month_names : list (list N) := map txt
  ["Jan"; "Feb"; "Mar"; "Apr"; "May"; "Jun"; "Jul"; "Aug"; "Sep"; "Oct"; "Nov"; "Dec"]%string.
Definition day_names : list (list N) := map txt ["Mon"; "Tue"; "Wed"; "Thu"; "Fri"; "Sat"; "Sun"]%string.

(** "Thu, 16 Nov 2023 10:42:10 GMT" *)
Definition date_text (w : list N) (y m d h mi s : N) : list N :=
  w ++ txt ", " ++ digit2 d ++ txt " " ++ nth (N.to_nat (m - 1)) month_names [] ++ txt " " ++ digit4 y ++ txt " " ++
  digit2 h ++ txt ":" ++ digit2 mi ++ txt ":" ++ digit2 s ++ txt " GMT".

(** Texts that strptime takes for such a date as well: names in full and in any case,
    numbers with fewer digits, other white space. *)
Definition lowered (c : N) : N := if (65 <=? c) && (c <=? 90) then c + 32 else c.
Definition is_name (names : list (list N)) (i : nat) (s : list N) : Prop :=
  (i < length names)%nat /\
  (map lowered s = map lowered (nth i names []) \/ map lowered s = map lowered (firstn 3 (nth i names []))).
Definition all_days : list (list N) := map txt
  ["Sunday"; "Monday"; "Tuesday"; "Wednesday"; "Thursday"; "Friday"; "Saturday"]%string.
Definition all_months : list (list N) := map txt
  ["January"; "February"; "March"; "April"; "May"; "June"; "July"; "August"; "September"; "October"; "November";
   "December"]%string.
Definition blanks (s : list N) : Prop := Forall (fun c => c = 32 \/ 9 <= c <= 13) s.
(** white space and up to [n] digits, a number from [lo] to [hi] *)
Definition is_field (s : list N) (lo hi : N) (n : nat) (v : N) : Prop :=
  exists b ds, s = b ++ ds /\ blanks b /\ decimal ds v /\ (length ds <= n)%nat /\ lo <= v <= hi.
Definition date_like (t : list N) (y m d h mi s : N) : Prop :=
  exists w dd b mm yy hh nn ss b', t = w ++ [44] ++ dd ++ b ++ mm ++ yy ++ hh ++ [58] ++ nn ++ [58] ++ ss ++ b' ++ txt "GMT" /\
    (exists i, is_name all_days i w) /\ is_field dd 1 31 2 d /\ blanks b /\
    1 <= m /\ is_name all_months (N.to_nat (m - 1)) mm /\ is_field yy 0 9999 4 y /\
    is_field hh 0 23 2 h /\ is_field nn 0 59 2 mi /\ is_field ss 0 61 2 s /\ blanks b'.

(** ** Messages *)
(** Letters, digits, '-' and '_' *)
Definition name_char (c : N) : Prop :=
  48 <= c <= 57 \/ 65 <= c <= 90 \/ 97 <= c <= 122 \/ c = 45 \/ c = 95.
Definition label_ok (l : list N) : Prop := (1 <= length l <= 63)%nat /\ Forall name_char l.

(** A name written out, or a pointer to the name of the question, which starts
    after the 12 octets of the header. *)
Inductive dname := Plain (labels : list (list N)) | Question.
Definition plain_bytes (labels : list (list N)) : list N :=
  flat_map (fun l => N.of_nat (length l) :: l) labels ++ [0].
Definition name_bytes (n : dname) : list N :=
  match n with Plain labels => plain_bytes labels | Question => [192; 12] end.
Definition plain_ok (labels : list (list N)) : Prop :=
  Forall label_ok labels /\ (length (plain_bytes labels) <= 128)%nat.
Definition name_ok (n : dname) : Prop := match n with Plain labels => plain_ok labels | Question => True end.

Definition two (v : nat) : list N := [N.of_nat v / 256; N.of_nat v mod 256].

(** A resource record: name, type, class, time to live, length, data *)
Record rr := mkRr { rr_name : dname; rr_class : list N; rr_ttl : list N; rr_data : list N }.
Definition rr_ok (r : rr) : Prop :=
  name_ok (rr_name r) /\ length (rr_class r) = 2%nat /\ length (rr_ttl r) = 4%nat /\ N.of_nat (length (rr_data r)) < 65536.
Definition rr_bytes (type : N) (r : rr) : list N :=
  name_bytes (rr_name r) ++ [0; type] ++ rr_class r ++ rr_ttl r ++ two (length (rr_data r)) ++ rr_data r.

(** Header, question for TXT, any number of CNAME records, one TXT record whose
    data starts with the character string [s], anything. *)
Record reply := mkReply { header : list N; question : list (list N); qclass : list N;
  cnames : list rr; answer_rr : rr; string_ : list N; more : list N; rest : list N }.
Definition reply_ok (m : reply) : Prop :=
  length (header m) = 12%nat /\ plain_ok (question m) /\ length (qclass m) = 2%nat /\
  Forall rr_ok (cnames m) /\ rr_ok (answer_rr m) /\
  rr_data (answer_rr m) = N.of_nat (length (string_ m)) :: string_ m ++ more m /\
  (1 <= length (string_ m) <= 255)%nat.
Definition reply_bytes (m : reply) : list N :=
  header m ++ plain_bytes (question m) ++ [0; 16] ++ qclass m ++
  flat_map (rr_bytes 5) (cnames m) ++ rr_bytes 16 (answer_rr m) ++ rest m.
