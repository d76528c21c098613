(** Model of Downloader.download and Downloader._check_database in
    src/python/location/downloader.py. *)
From Coq Require Import NArith ZArith List Bool Arith.
From Verif Require Import Base ModelDatabase ModelVerify.
Import ListNotations.
Open Scope N_scope.

(** An open file: content and position. *)
Record file := mkFile { content : list N; pos : nat }.

(** t.write: replaces what is at the position, extends the file. (The buffering
    of Python is not visible: the file is flushed before it is opened again.) *)
Definition fwrite (f : file) (buf : list N) : file :=
  mkFile (firstn (pos f) (content f) ++ buf ++ skipn (pos f + length buf) (content f)) (pos f + length buf).

(** t.truncate(): cuts the file off at the current position, which stays. *)
Definition truncate (f : file) : file := mkFile (firstn (pos f) (content f)) (pos f).

(** What a mirror does when it is asked: urlopen raises HTTPError, urlopen raises
    another exception (URLError: no connection, no such host), or it delivers
    chunks (read(1024)); [broken] if read raises after these. *)
Inductive mirror :=
| HttpError (code : Z)
| Unreachable
| Body (chunks : list (list N)) (broken : bool).

(** lzma.LZMADecompressor.decompress: new state and output, LZMAError, or another
    exception (EOFError for data behind the end of the stream). *)
Inductive decompressed (St : Type) := Out (s : St) (buf : list N) | LzmaError | OtherError.
Arguments Out {St} s buf.
Arguments LzmaError {St}.
Arguments OtherError {St}.

Inductive transfer := Complete | Broken_data | Raised.

(** What download returns: the file, FileNotFoundError after removing the
    temporary file, or another exception (the temporary file stays). *)
Inductive result := Returned (f : list N) | NotFound | Exception (left : list N).

Section Download.
  Variable St : Type.
  Variable init : St.
  Variable decompress : St -> list N -> decompressed St.
  (** self._check_database: True, False or an exception *)
  Variable check : list N -> option bool.

  (** downloader.py:137-145 *)
  Fixpoint receive (s : St) (f : file) (chunks : list (list N)) (broken : bool) : file * transfer :=
    match chunks with
    | [] => (f, if broken then Raised else Complete)
    | c :: chunks' =>
        if (length c =? 0)%nat then (f, Complete)
        else match decompress s c with
             | Out s' buf => receive s' (if (length buf =? 0)%nat then f else fwrite f buf) chunks' broken
             | LzmaError => (f, Broken_data)
             | OtherError => (f, Raised)
             end
    end.

  (** downloader.py:126-185 *)
  Fixpoint try_mirrors (f : file) (mirrors : list mirror) : result :=
    match mirrors with
    | [] => NotFound
    | HttpError _ :: mirrors' => try_mirrors (truncate f) mirrors'
    | Unreachable :: _ => Exception (content f)
    | Body chunks broken :: mirrors' =>
        match receive init f chunks broken with
        | (f, Raised) => Exception (content f)
        | (f, Broken_data) => try_mirrors f mirrors'
        | (f, Complete) =>
            match check (content f) with
            | None => Exception (content f)
            | Some false => try_mirrors (truncate f) mirrors'
            | Some true => Returned (content f)
            end
        end
    end.

  Definition download (mirrors : list mirror) : result := try_mirrors (mkFile [] 0) mirrors.
End Download.

(** python/database.c:136-140 Database_get_created_at: the number is taken for a
    time_t, which is signed. *)
Definition py_created_at (d : db) : Z :=
  if d_created_at d <? 2 ^ 63 then Z.of_N (d_created_at d) else (Z.of_N (d_created_at d) - 2 ^ 64)%Z.

(** downloader.py:187-210 _check_database; the key [k] is the verifier of
    ModelVerify, [timestamp] is 0 for None, [shown] says whether time.gmtime and
    time.strftime accept a time. Opening the key file is taken to succeed. An access
    outside of the mapped file is an exception here. *)
Definition check_database (shown : Z -> bool) (k : verifier) (timestamp : N) (f : list N) : option bool :=
  match db_open f with
  | Ok d =>
      if negb (timestamp =? 0) && (py_created_at d <? Z.of_N timestamp)%Z then Some false
      else if negb (shown (py_created_at d)) then None
      else match verify d k with
           | Ok r => Some (r =? 0)%Z
           | Err _ => Some false
           | UB | Fuel => None
           end
  | _ => None
  end.
