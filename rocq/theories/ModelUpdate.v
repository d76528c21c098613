(** Model of `location update`, `location verify` and `location version`:
    src/scripts/location.in (CLI.run, handle_update, handle_verify, handle_version) and
    discover_latest_version in src/python/locationmodule.c. *)
From Coq Require Import String.
From Coq Require Import NArith ZArith List Bool Arith.
From Verif Require Import Base ModelCountryCode ModelText SpecText ModelDatabase ModelVerify ModelResolv ModelDownload.
Import ListNotations.
Open Scope Z_scope.

(** What is at the path of the database: nothing (fopen fails with ENOENT), something
    that cannot be opened for another reason, or a file. *)
Inductive installed := Missing | Unreadable | File (f : list N).

(** python/database.c:47-78 Database_init: a database, FileNotFoundError, another
    exception (PyErr_SetFromErrno with the errno that the library left; [enoent]
    says whether that is ENOENT), or an access outside of the mapped file. *)
Inductive opened := Db (d : db) | FileNotFound | OpenError | Crash.
Definition py_open (enoent : bool) (i : installed) : opened :=
  match i with
  | Missing => FileNotFound
  | Unreadable => OpenError
  | File f => match db_open f with
              | Ok d => Db d
              | Err _ => if enoent then FileNotFound else OpenError
              | UB | Fuel => Crash
              end
  end.

(** locationmodule.c:52-65 discover_latest_version: None or the time, converted to an
    unsigned long. [r], [len], [answer]: see [discover]. *)
Definition py_discover (expand : list N -> nat -> nat -> outcome nat) (r len : Z) (answer : list N) : outcome (option N) :=
  do x <- discover expand r len answer;
  let (r, t) := x in
  if negb (r =? 0) then Ok None
  else Ok (Some (Z.to_N (match t with Some t => t | None => 0 end mod 2 ^ 64))).

(** --cron *)
Inductive interval := Daily | Weekly | Monthly.
(** location.in:428-435 *)
Definition delta (c : interval) : Z := match c with Daily => 86400 | Weekly => 604800 | Monthly => 2592000 end.

(** Exit code and the file at the path of the database *)
Record update_result := mkUpdate { exit_code : Z; after : installed }.

Section Update.
  (** As in ModelDownload *)
  Variables (St : Type) (init : St) (decompress : St -> list N -> decompressed St).
  Variables (shown : Z -> bool) (k : verifier).
  (** Whether an exception of the downloader is a ValueError *)
  Variable value_error : bool.
  (** Whether shutil.move succeeds. *)
  Variable moved : bool.

  (** location.in:424-474 handle_update with [now] rounded up to seconds (created_at is an
      integer, so the comparison with now - delta is the same), [t] from
      discover_latest_version, and location.in:232-251 for the exit code. *)
  Definition handle_update (i : installed) (d : option db) (cron : option interval) (now : Z) (t : option N)
      (mirrors : list mirror) : update_result :=
    if match cron, d with
       | Some c, Some d => now - delta c <=? py_created_at d
       | _, _ => false
       end then mkUpdate 3 i
    else if match d, t with
            | Some d, Some t => negb (t =? 0)%N && (Z.of_N t <=? py_created_at d)
            | _, _ => false
            end then mkUpdate 0 i
    else
      let timestamp := match t with Some t => t | None => 0%N end in
      (* downloader.py:121-124 *)
      if negb (timestamp =? 0)%N && negb (shown (Z.of_N timestamp)) then mkUpdate (if value_error then 2 else 1) i
      else match download St init decompress (check_database shown k timestamp) mirrors with
           | Returned f => if moved then mkUpdate 0 (File f) else mkUpdate 1 i
           | NotFound => mkUpdate 1 i
           | Exception _ => mkUpdate (if value_error then 2 else 1) i
           end.

  (** location.in:206-251 run for `location update`; an exception that is not caught ends
      Python with 1. *)
  Definition update (enoent : bool) (i : installed) (cron : option interval) (now : Z) (t : option N)
      (mirrors : list mirror) : outcome update_result :=
    match py_open enoent i with
    | Crash => UB
    | OpenError => Ok (mkUpdate 1 i)
    | FileNotFound => Ok (handle_update i None cron now t mirrors)
    | Db d => Ok (handle_update i (Some d) cron now t mirrors)
    end.
End Update.

(** location.in:476-485 handle_verify with [run]: the exit code *)
Definition verify_command (k : verifier) (enoent : bool) (i : installed) : outcome Z :=
  match py_open enoent i with
  | Crash => UB
  | OpenError | FileNotFound => Ok 1
  | Db d => match verify d k with
            | Ok r => Ok (if r =? 0 then 0 else 1)
            | Err _ => Ok 1
            | UB => UB
            | Fuel => Fuel
            end
  end.

(** time.gmtime: glibc's __offtime (time/offtime.c). [days] since the epoch and the rest
    of the day; the loop finds the year, starting with 1970. DIV rounds down. *)
Definition leaps_thru_end_of (y : Z) : Z := y / 4 - y / 100 + y / 400.
Fixpoint find_year (y days : Z) (fuel : nat) : option (Z * Z) :=
  let len := if leapyear y then 366 else 365 in
  if (days <? 0) || (len <=? days) then
    match fuel with
    | O => None
    | S fuel' =>
        (* Guess a corrected year, assuming 365 days per year. *)
        let yg := y + days / 365 in
        let days := days - ((yg - y) * 365 + leaps_thru_end_of (yg - 1) - leaps_thru_end_of (y - 1)) in
        find_year yg days fuel'
    end
  else Some (y, days).
(** [ip] is __mon_yday; the last month that starts on or before the day *)
Fixpoint find_month (ip : list Z) (y : nat) (days : Z) : nat :=
  match y with
  | O => O
  | S y' => if days <? nth y ip 0 then find_month ip y' days else y
  end.
Definition gmtime (t : Z) (fuel : nat) : option (tm * Z) :=
  let days := t / 86400 in
  let rem := t mod 86400 in
  match find_year 1970 days fuel with
  | None => None
  | Some (y, yday) =>
      let ip := mon_yday (leapyear y) in
      let m := find_month ip 11 yday in
      Some (mkTm (Z.to_N (rem mod 60)) (Z.to_N (rem mod 3600 / 60)) (Z.to_N (rem / 3600))
             (Z.to_N (yday - nth m ip 0 + 1)) (N.of_nat m) (y - 1900), (4 + days) mod 7)
  end.

(** time.strftime with "%a, %d %b %Y %H:%M:%S GMT" in the C locale; %Y as printed for the
    years with four digits *)
Definition two_digits (v : N) : cstr := [48 + v / 10; 48 + v mod 10]%N.
Definition four_digits (v : N) : cstr := [48 + v / 1000; 48 + v / 100 mod 10; 48 + v / 10 mod 10; 48 + v mod 10]%N.
Definition strftime (x : tm * Z) : cstr :=
  let (t, wday) := x in
  firstn 3 (nth (Z.to_nat wday) weekdays []) ++ txt ", " ++ two_digits (tm_mday t) ++ txt " " ++
  firstn 3 (nth (N.to_nat (tm_mon t)) months []) ++ txt " " ++ four_digits (Z.to_N (tm_year t + 1900)) ++ txt " " ++
  two_digits (tm_hour t) ++ txt ":" ++ two_digits (tm_min t) ++ txt ":" ++ two_digits (tm_sec t) ++ txt " GMT".

(** location.in:253-261 handle_version: what is printed; the same text is sent to the
    mirrors (downloader.py:121-124). *)
Definition time_text (t : Z) (fuel : nat) : option cstr := option_map strftime (gmtime t fuel).
