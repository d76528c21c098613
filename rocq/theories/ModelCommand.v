(** Model of the lookup command of src/scripts/location.in. Messages are not
    translated, as in the C locale. *)
From Coq Require Import String.
From Coq Require Import NArith ZArith List Bool Arith.
From Verif Require Import Base ModelAddress ModelCountryCode ModelNetwork ModelObjects ModelText SpecText
  ModelFile ModelDatabase ModelBindings.
Import ListNotations.
Open Scope N_scope.

(** "  %-24s: %s" % (label, value) *)
Definition row (label value : cstr) : cstr :=
  txt "  " ++ label ++ repeat 32 (24 - length label) ++ txt ": " ++ value.

(** Printing lines: those that were printed, and the exception that ended it *)
Definition printing : Type := outcome (list cstr * option exc).
Definition printed (l : list cstr) : printing := Ok (l, None).
Definition then_ (m m' : printing) : printing :=
  do x <- m;
  match x with
  | (l, Some e) => Ok (l, Some e)
  | (l, None) => do x' <- m'; Ok (l ++ fst x', snd x')
  end.
Definition with_ {A} (m : py A) (f : A -> printing) : printing :=
  do r <- m; match r with inl a => f a | inr e => Ok ([], Some e) end.

Section Command.
Variable beyond : nat -> option N.
Variable fuel : nat.
Variable replaced : cstr -> cstr.
Variable other : exc.

(** location.in:289-296 *)
Definition show_country (d : db) (n : network) : printing :=
  with_ (py_country_code n) (fun code =>
  match code with
  | [] => printed []
  | _ =>
      with_ (py_get_country other d code) (fun c =>
      match c with
      | None => printed [row (txt "Country") code]
      | Some c =>
          with_ (py_country_name c) (fun name =>
          printed [row (txt "Country") (match name with Some s => s | None => txt "None" end)])
      end)
  end).

(** location.in:298-305 *)
Definition show_as (d : db) (n : network) : printing :=
  match py_asn n with
  | None => printed []
  | Some asn =>
      with_ (py_get_as d asn) (fun a =>
      printed [row (txt "Autonomous System") (match a with Some a => py_as_str replaced a | None => txt "AS" ++ dec asn end)])
  end.

(** location.in:307-329 *)
Definition show_flag (n : network) (flag : N) (label : cstr) : printing :=
  printed (if py_has_flag n flag then [row label (txt "yes")] else []).

(** location.in:286-329 *)
Definition show (d : db) (address : cstr) (n : network) : printing :=
  then_ (printed [address ++ txt ":"])
  (then_ (with_ (py_network_str n) (fun s => printed [row (txt "Network") s]))
  (then_ (show_country d n)
  (then_ (show_as d n)
  (then_ (show_flag n 1 (txt "Anonymous Proxy"))
  (then_ (show_flag n 2 (txt "Satellite Provider"))
  (then_ (show_flag n 4 (txt "Anycast"))
  (show_flag n 8 (txt "Hostile Network safe to drop")))))))).

(** location.in:236-244: the exit code for an exception that ends a command *)
Definition exit_code (e : exc) : N := match e with ValueError => 2 | _ => 1 end.

(** The exit code, the lines on the standard output, and the addresses for which
    "Nothing found" is printed on the standard error. Other messages on the
    standard error are left out. *)
Record ended := mkEnded { code : N; out : list cstr; missing : list cstr }.

(** location.in:263-331 handle_lookup within location.in:206-251 run *)
Fixpoint handle_lookup (d : db) (ret : N) (addresses : list cstr) (lines nothing : list cstr) : outcome ended :=
  match addresses with
  | [] => Ok (mkEnded ret lines nothing)
  | address :: rest =>
      do r <- py_lookup beyond fuel d address;
      match r with
      | inr e => Ok (mkEnded (exit_code e) lines nothing)
      | inl None => handle_lookup d 1 rest lines (nothing ++ [address])
      | inl (Some n) =>
          do x <- show d address n;
          match x with
          | (l, Some e) => Ok (mkEnded (exit_code e) (lines ++ l) nothing)
          | (l, None) => handle_lookup d ret rest (lines ++ l) nothing
          end
      end
  end.
Definition lookup_command (d : db) (addresses : list cstr) : outcome ended := handle_lookup d 0 addresses [] [].
End Command.
