(** Model of the writer in Python: src/python/writer.c, and the getters of
    src/python/database.c for what it writes. Objects returned by add_as and add_country are
    named by their number, as in SpecWriter. *)
From Coq Require Import NArith ZArith List Bool Arith.
From Verif Require Import Base ModelAddress ModelCountryCode ModelNetwork ModelTree ModelStringPool ModelObjects ModelText ModelFile ModelWriter ModelDatabase
  ModelBindings ModelPython SpecTree SpecWriter.
Import ListNotations.
Open Scope N_scope.

(** The exceptions of ModelBindings, and IndexError *)
Inductive wexc := Exc (e : exc) | IndexError.

(** Assignments to a network that was returned by add_network *)
Inductive nset := SetAsn (v : pyval) | SetCode (v : pyval) | SetFlag (v : pyval).
(** Statements on a writer; a network is changed right after it was added. *)
Inductive pystmt :=
| PyVendor (v : pyval) | PyDescription (v : pyval) | PyLicense (v : pyval)
| PyAddAs (v : pyval) | PyNameAs (id : nat) (v : pyval)
| PyAddCountry (v : pyval) | PyNameCountry (id : nat) (v : pyval) | PyContinent (id : nat) (v : pyval)
| PyAddNet (v : pyval) (sets : list nset).

(** The exception of a statement, and the writer after it *)
Definition effect_ := outcome (option wexc * writer).
Definition done (w : writer) : effect_ := Ok (None, w).
Definition fails (e : wexc) (w : writer) : effect_ := Ok (Some e, w).

(** writer.c:100-110, 118-128, 136-146 Writer_set_vendor, Writer_set_description,
    Writer_set_license; the format of the message is given NULL if there is no text *)
Definition py_set_text (f : writer -> option cstr -> outcome writer) (w : writer) (v : pyval) : effect_ :=
  do t <- as_utf8 v;
  match t with
  | inl s => match f w (Some s) with Ok w' => done w' | Err _ => fails (Exc ValueError) w | UB => UB | Fuel => Fuel end
  | inr e => match f w None with Ok w' => fails (Exc e) w' | Err _ => UB | UB => UB | Fuel => Fuel end
  end.
(** writer.c:148-164 Writer_add_as; an error without an exception is a SystemError *)
Definition py_add_as (w : writer) (v : pyval) : effect_ :=
  match as_int v with
  | inl z => match writer_add_as w (Z.to_N (z mod 2 ^ 32)) with
             | Ok w' => done w' | Err _ => fails (Exc SystemError) w | UB => UB | Fuel => Fuel
             end
  | inr e => fails (Exc e) w
  end.
(** as.c:93-103 AS_set_name (py_set_as_name) on the object in the list *)
Definition py_name_as (w : writer) (id : nat) (v : pyval) : effect_ :=
  do t <- as_utf8 v;
  match t with
  | inl s => done (name_as w id (Some s))
  | inr e => fails (Exc e) (name_as w id None)
  end.
(** writer.c:166-190 Writer_add_country: after -EINVAL it goes on with a pointer that was
    not initialised *)
Definition py_add_country (w : writer) (v : pyval) : effect_ :=
  match v with
  | PyStr s =>
      do a <- py_arg s;
      match a with
      | inr e => fails (Exc e) w
      | inl s => match writer_add_country w (Some s) with
                 | Ok w' => done w'
                 | Err r => if (r =? -EINVAL)%Z then UB else fails (Exc SystemError) w
                 | UB => UB
                 | Fuel => Fuel
                 end
      end
  | _ => fails (Exc TypeError) w
  end.
(** country.c:91-101, 112-122 (py_set_country_name, py_set_continent) on the object in the
    list; whether a continent is refused does not depend on the object *)
Definition py_name_country (w : writer) (id : nat) (v : pyval) : effect_ :=
  do t <- as_utf8 v;
  match t with
  | inl s => do w' <- name_country w id (Some s); done w'
  | inr e => do w' <- name_country w id None; fails (Exc e) w'
  end.
Definition py_set_continent_of (w : writer) (id : nat) (v : pyval) : effect_ :=
  do t <- as_utf8 v;
  match t with
  | inl s => if negb (length s =? 2)%nat then fails (Exc ValueError) w else do w' <- continent_country w id (Some s); done w'
  | inr e => UB
  end.
(** the assignments one after the other, until one fails *)
Fixpoint py_sets (n : network) (sets : list nset) : outcome (option wexc * network) :=
  match sets with
  | [] => Ok (None, n)
  | s :: sets' =>
      do r <- match s with SetAsn v => Ok (py_set_asn n v) | SetCode v => py_set_country_code n v | SetFlag v => Ok (py_set_flag n v) end;
      match r with
      | Stored n' => py_sets n' sets'
      | Refused e n' | Unreported e n' => Ok (Some (Exc e), n')
      end
  end.
(** writer.c:192-219 Writer_add_network *)
Definition py_add_net (w : writer) (v : pyval) (sets : list nset) : effect_ :=
  match v with
  | PyStr s =>
      do a <- py_arg s;
      match a with
      | inr e => fails (Exc e) w
      | inl s => match network_new_from_string (Some s) with
                 | Ok n =>
                     let (t, r) := tree_add (w_tree w) n in
                     if (r =? 0)%Z then
                       do (e, x) <- py_sets n sets;
                       Ok (e, with_tree w (change t n (n_cc x, n_asn x, n_flags x)))
                     else fails (if (r =? -EINVAL)%Z then Exc ValueError else if (r =? -EBUSY)%Z then IndexError else Exc SystemError) (with_tree w t)
                 | Err r => fails (Exc (if (r =? -EINVAL)%Z then ValueError else SystemError)) w
                 | UB => UB
                 | Fuel => Fuel
                 end
      end
  | _ => fails (Exc TypeError) w
  end.

Definition py_step (w : writer) (s : pystmt) : effect_ :=
  match s with
  | PyVendor v => py_set_text set_vendor w v
  | PyDescription v => py_set_text set_description w v
  | PyLicense v => py_set_text set_license w v
  | PyAddAs v => py_add_as w v
  | PyNameAs id v => py_name_as w id v
  | PyAddCountry v => py_add_country w v
  | PyNameCountry id v => py_name_country w id v
  | PyContinent id v => py_set_continent_of w id v
  | PyAddNet v sets => py_add_net w v sets
  end.
(** A script that goes on after exceptions: the exceptions of its statements *)
Fixpoint py_run (w : writer) (l : list pystmt) : outcome (list (option wexc) * writer) :=
  match l with
  | [] => Ok ([], w)
  | s :: l' =>
      do (e, w1) <- py_step w s;
      do (es, w2) <- py_run w1 l';
      Ok (e :: es, w2)
  end.
(** Writer() without keys (41-92 Writer_init), and the statements *)
Definition py_script (l : list pystmt) : outcome (list (option wexc) * writer) := do w <- writer_new; py_run w l.

Section Write.
  Variable ctz0 : nat.
  Variable held : network -> bool.
  Variable key1 key2 : option evp.
  (** writer.c:221-244 Writer_write: [opened] tells whether fopen works; it empties the file.
      The exception, the writer, and the file if it was opened *)
  Definition py_write (opened : bool) (x : save) (version : pyval) (w : writer) : outcome (option wexc * writer * option (list N)) :=
    match as_int version with
    | inr e => Ok (Some (Exc e), w, None)
    | inl z =>
        if negb opened then Ok (Some (Exc OSError), w, None)
        else
          do (r, w', f) <- write_to ctz0 held key1 key2 w (mkSave (s_now x) (Z.to_N (z mod 2 ^ 32)) [] (s_hole x) (s_block0 x));
          Ok (if (r =? 0)%Z then None else Some (Exc OSError), w', Some f)
    end.
End Write.

(** database.c:112-140 Database_get_description, Database_get_vendor, Database_get_license,
    Database_get_created_at *)
Definition py_db_text (get : db -> outcome (option cstr)) (d : db) : py (option cstr) :=
  do t <- get d;
  match t with
  | None => value None
  | Some s => pbind (py_text s) (fun s => value (Some s))
  end.
Definition py_created_at (d : db) : Z := let t := Z.of_N (d_created_at d) in if (t <? 2 ^ 63)%Z then t else (t - 2 ^ 64)%Z.
