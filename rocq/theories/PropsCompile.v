(** Compilation of a database by the importer: the claims *)
From Coq Require Import String.
From Coq Require Import NArith ZArith List Bool Arith Lia ZifyBool ZifyNat ZifyN.
From Verif Require Import Base ModelCountryCode ModelStringPool SpecText ModelNetwork ModelTree ModelObjects ModelWriter SpecNetwork SpecStringPool SpecTree
  ModelDatabase ModelEnum SpecEnum LemmasDbProps PropsDatabase PropsEnum SpecWriter
  ModelImport SpecImport ModelCompile SpecCompile LemmasCompileDb LemmasCompileProps.
Import ListNotations.
Open Scope N_scope.

(** ** C59: every address gets what the sources say about it *)
(** The networks that are added are those that any source knows. *)
Theorem C59_networks : forall vendor description license t os, tables_wf t ->
  handle_write vendor description license t = Some os ->
  (forall n, known t n -> exists z, In z (given os) /\
     num (n_first z) = mapped (p_bits n) (p_base n) /\ num (n_last z) + 1 = mapped (p_bits n) (p_base n) + size_of n) /\
  (forall z, In z (given os) -> exists n, known t n /\
     num (n_first z) = mapped (p_bits n) (p_base n) /\ num (n_last z) + 1 = mapped (p_bits n) (p_base n) + size_of n).
Proof. exact added_networks. Qed.
Print Assumptions C59_networks.
(** Partial: for networks as in [usual]: IPv6 networks with the addresses of IPv4 are left out. *)
Theorem C59_database_partial : forall vendor description license t os ctz0 held key1 key2 w x w' f d,
  tables_wf t -> texts_ok t -> keys_ok t -> opt_cstr vendor -> opt_cstr description -> opt_cstr license ->
  handle_write vendor description license t = Some os ->
  program ctz0 held key1 key2 os = Ok w ->
  write_to ctz0 held key1 key2 w x = Ok (0%Z, w', f) ->
  N.of_nat (length f) < 2 ^ 32 -> s_now x < 2 ^ 64 -> db_open f = Ok d ->
  (forall n, known t n -> usual n) ->
  forall beyond fuel old, (3 * N.to_nat (snd (d_tree d)) + 1 <= fuel)%nat ->
  exists Ns, SpecNetworkList.ascending Ns /\
  (forall l, Forall setting_ok l -> exists L, enumerates (next_network beyond d fuel old) (configured Networks false l) L /\
     SpecNetworkList.ascending L /\ forall n, In n L <-> In n Ns /\ wanted l n) /\
  forall bits v, fits bits v ->
    ((exists z, most_specific Ns (mapped bits v) z) <-> exists n, known t n /\ p_bits n = bits /\ holds n v) /\
    (forall z, most_specific Ns (mapped bits v) z -> exists asn a, expected t bits v asn a /\
       get_country_code z = code_of (a_country a) /\ n_asn z = number_of asn /\ n_flags z = flags_of a).
Proof. exact database_networks. Qed.
Print Assumptions C59_database_partial.
(** An announcement with an AS number of 32 bits ends the command. *)
Theorem C59_large_asn : forall vendor description license t n a, tables_wf t -> NoDup (map fst (t_announcements t)) ->
  In (n, a) (t_announcements t) -> 2 ^ 31 <= a -> handle_write vendor description license t = None.
Proof. exact large_announcement. Qed.
Print Assumptions C59_large_asn.

(** 10.0.0.0/8 is announced by 64500 and 10.1.0.0/16 by 64501; there is a geofeed for
    10.2.0.0/16, and one that claims 10.3.0.0/16 without being allowed to *)
Definition net4 (a b c e p : N) : pnet := mkP 32 (a * 2 ^ 24 + b * 2 ^ 16 + c * 2 ^ 8 + e) p.
Definition a_tables : tables := mkTables
  [(net4 10 0 0 0 8, 64500); (net4 10 1 0 0 16, 64501)]
  [mkRow (net4 10 0 0 0 8) (Some (txt "DE"))]
  [(1, txt "https://one"); (2, txt "https://two")]
  [(net4 10 2 0 0 15, txt "https://one"); (net4 11 0 0 0 8, txt "https://two")]
  [(1, mkRow (net4 10 2 0 0 16) (Some (txt "FR"))); (2, mkRow (net4 10 3 0 0 16) (Some (txt "RU")))]
  [(net4 10 2 128 0 17, mkAttrs None (Some true) None None None)]
  [(64501, mkAttrs (Some (txt "IT")) None None (Some true) None)]
  [(net4 10 1 1 0 24, mkAttrs (Some (txt "AT")) None None (Some false) None)]
  [(64500, (Some (txt "Five"), mkAttrs None None None None (Some true))); (64999, (Some (txt "Six"), mkAttrs None None None None None))]
  [(64501, txt "Other"); (64500, txt "One"); (64502, [])]
  [(txt "FR", (txt "EU", txt "France")); (txt "DE", (txt "EU", txt "Germany"))].
Definition a_write : list call := match handle_write (Some (txt "V")) None None a_tables with Some l => l | None => [] end.
Lemma in_list : forall A (l : list A) (P : A -> Prop), Forall P l -> forall x, In x l -> P x.
Proof. intros A l P F. apply Forall_forall. exact F. Qed.
Ltac a_net := split; [left; reflexivity|]; split; [vm_compute; discriminate|split; reflexivity].
Lemma a_wf : tables_wf a_tables.
Proof.
  split.
  - intros n K. apply LemmasCompile.all_networks_known in K. revert n K. apply in_list.
    vm_compute all_networks. repeat (apply Forall_cons; [a_net|]). apply Forall_nil.
  - intros n url [E|[E|[]]]; (inversion E; subst; a_net).
Qed.
Lemma a_usual : forall n, known a_tables n -> usual n.
Proof.
  intros n K. apply LemmasCompile.all_networks_known in K. revert n K. apply in_list.
  vm_compute all_networks. repeat (apply Forall_cons; [left; reflexivity|]). apply Forall_nil.
Qed.
Example usual_case : usual (mkP 128 (0x64ff9b * 2 ^ 96) 96) /\ usual (mkP 128 (0x64ff9b * 2 ^ 96 + 8) 128) /\ usual (mkP 128 (2 ^ 127) 1).
Proof.
  split; [|split]; right; (split; [right; vm_compute; discriminate|]); vm_compute size_of; intros H; try discriminate H.
  split; [discriminate|]. intros k E. pose proof (f_equal N.log2 E) as L. rewrite N.log2_pow2 in L by apply N.le_0_l. subst k. vm_compute in E. discriminate.
Qed.
Lemma a_texts : texts_ok a_tables.
Proof.
  split; [|split].
  - intros n s H. change s with (snd (n, s)). revert H. generalize (n, s). apply in_list. repeat constructor.
  - intros n s a H. change s with (match fst (snd (n, (Some s, a))) with Some s => s | None => [] end). revert H. generalize (n, (Some s, a)). apply in_list. repeat constructor.
  - intros c k s H. change (is_cstr (fst (snd (c, (k, s)))) /\ is_cstr (snd (snd (c, (k, s))))). revert H. generalize (c, (k, s)). apply in_list. repeat constructor.
Qed.
Lemma a_keys : keys_ok a_tables.
Proof. repeat split; cbn; repeat constructor; cbn; intuition discriminate. Qed.
Definition seen (r : list network * option Z) : list (N * nat * cstr * N * N) :=
  map (fun x => (num (n_first x) - 65535 * 2 ^ 32, n_prefix x, get_country_code x, n_asn x, n_flags x)) (fst r).
Definition rows_eqb (a b : list (N * nat * cstr * N * N)) : bool :=
  if list_eq_dec (fun a b : N * nat * cstr * N * N => ltac:(repeat decide equality)) a b then true else false.
Example C59_case : tables_wf a_tables /\ texts_ok a_tables /\ keys_ok a_tables /\ (forall n, known a_tables n -> usual n) /\
  handle_write (Some (txt "V")) None None a_tables = Some a_write /\
  exists w w' f d, program 0 (fun _ => true) None None a_write = Ok w /\
    write_to 0 (fun _ => true) None None w save0 = Ok (0%Z, w', f) /\
    N.of_nat (length f) < 2 ^ 32 /\ s_now save0 < 2 ^ 64 /\ db_open f = Ok d /\
    rows_eqb (seen (PropsEnum.run (next_network (fun _ => None) d (3 * N.to_nat (snd (d_tree d)) + 1) None) (configured Networks false []) 20))
      [(10 * 2 ^ 24, 104%nat, txt "DE", 64500, 8);
       (10 * 2 ^ 24 + 2 ^ 16, 112%nat, txt "IT", 64501, 4);
       (10 * 2 ^ 24 + 2 ^ 16 + 2 ^ 8, 120%nat, txt "AT", 64501, 0);
       (10 * 2 ^ 24 + 2 * 2 ^ 16, 112%nat, txt "FR", 64500, 8);
       (10 * 2 ^ 24 + 2 * 2 ^ 16 + 2 ^ 15, 113%nat, txt "FR", 64500, 9)] = true.
Proof.
  split; [exact a_wf|]. split; [exact a_texts|]. split; [exact a_keys|]. split; [exact a_usual|].
  split; [vm_compute; reflexivity|]. apply a_case. vm_compute. reflexivity.
Qed.
(** AS 4200000000 is announced; the column is too small *)
Theorem C59_asn_refuted : exists t n a, tables_wf t /\ known t n /\ In (n, a) (t_announcements t) /\ a < 2 ^ 32 /\
  handle_write None None None t = None.
Proof.
  exists (mkTables [(net4 10 0 0 0 8, 4200000000)] [] [] [] [] [] [] [] [] [] []), (net4 10 0 0 0 8), 4200000000.
  split.
  - split; [|intros n url []]. intros n K. apply LemmasCompile.all_networks_known in K. revert n K. apply in_list.
    vm_compute all_networks. repeat (apply Forall_cons; [a_net|]). apply Forall_nil.
  - split; [left; eexists; left; reflexivity|]. split; [left; reflexivity|]. split; [reflexivity|]. vm_compute. reflexivity.
Qed.
Print Assumptions C59_asn_refuted.

(** ** C60: names of ASes *)
Theorem C60_names : forall vendor description license t os ctz0 held key1 key2 w x w' f d,
  tables_wf t -> texts_ok t -> keys_ok t -> opt_cstr vendor -> opt_cstr description -> opt_cstr license ->
  handle_write vendor description license t = Some os ->
  program ctz0 held key1 key2 os = Ok w ->
  write_to ctz0 held key1 key2 w x = Ok (0%Z, w', f) ->
  N.of_nat (length f) < 2 ^ 32 -> s_now x < 2 ^ 64 -> db_open f = Ok d ->
  (forall n s, as_named t n s -> exists r, get_as d n = Ok r /\ as_number r = n /\ as_name r = Some s) /\
  (forall n, (forall s, ~ as_named t n s) -> get_as d n = Err 1).
Proof. exact database_ases. Qed.
Print Assumptions C60_names.
(** An AS with a name and a number of 32 bits ends the command. *)
Theorem C60_large_number : forall vendor description license t n s, keys_ok t -> as_named t n s -> 2 ^ 31 <= n ->
  handle_write vendor description license t = None.
Proof. exact large_as. Qed.
Print Assumptions C60_large_number.
Definition name_is (d : db) (n : N) (s : cstr) : bool :=
  match get_as d n with Ok r => match as_name r with Some x => cstr_eqb x s | None => false end | _ => false end.
Example C60_case : as_named a_tables 64500 (txt "Five") /\ as_named a_tables 64501 (txt "Other") /\ (forall s, ~ as_named a_tables 64502 s) /\
  exists w w' f d, program 0 (fun _ => true) None None a_write = Ok w /\
    write_to 0 (fun _ => true) None None w save0 = Ok (0%Z, w', f) /\
    N.of_nat (length f) < 2 ^ 32 /\ s_now save0 < 2 ^ 64 /\ db_open f = Ok d /\
    (name_is d 64500 (txt "Five") && name_is d 64501 (txt "Other") && match get_as d 64502 with Err 1 => true | _ => false end)%bool = true.
Proof.
  split; [split; [discriminate|exists (txt "One"); split; [right; left; reflexivity|left; eexists; left; reflexivity]]|].
  split. { split; [discriminate|]. exists (txt "Other"). split; [left; reflexivity|right]. split; [reflexivity|].
    intros y b [E|[E|[]]]; discriminate. }
  split. { intros s (NE & name & [E|[E|[E|[]]]] & D); try discriminate. destruct D as [[a [Q|[Q|[]]]]|[-> _]]; try discriminate. apply NE. congruence. }
  apply a_case. vm_compute. reflexivity.
Qed.
(** The overrides name AS 64999, but it is not in the database. *)
Theorem C60_override_refuted : exists t os n s a, handle_write (Some (txt "V")) None None t = Some os /\ In (n, (Some s, a)) (t_autnum_overrides t) /\
  exists w w' f d, program 0 (fun _ => true) None None os = Ok w /\
    write_to 0 (fun _ => true) None None w save0 = Ok (0%Z, w', f) /\
    N.of_nat (length f) < 2 ^ 32 /\ s_now save0 < 2 ^ 64 /\ db_open f = Ok d /\
    match get_as d n with Err 1 => true | _ => false end = true.
Proof.
  exists a_tables, a_write, 64999, (txt "Six"), (mkAttrs None None None None None).
  split; [vm_compute; reflexivity|]. split; [right; left; reflexivity|]. apply a_case. vm_compute. reflexivity.
Qed.
Print Assumptions C60_override_refuted.

(** ** C61: countries *)
Theorem C61_countries : forall vendor description license t os ctz0 held key1 key2 w x w' f d,
  tables_wf t -> texts_ok t -> keys_ok t -> opt_cstr vendor -> opt_cstr description -> opt_cstr license ->
  handle_write vendor description license t = Some os ->
  program ctz0 held key1 key2 os = Ok w ->
  write_to ctz0 held key1 key2 w x = Ok (0%Z, w', f) ->
  N.of_nat (length f) < 2 ^ 32 -> s_now x < 2 ^ 64 -> db_open f = Ok d ->
  (forall c k s, In (c, (k, s)) (t_countries t) ->
     (exists y, get_country d (Some c) = Ok (Some y) /\ cc_str (c_code y) = c /\ country_get_name y = Ok (Some s)) /\
     (exists i y, fetch_country d i = Ok y /\ i < N.of_nat (length (t_countries t)) /\
        cc_str (c_code y) = c /\ country_get_continent_code y = Some k /\ country_get_name y = Ok (Some s))) /\
  (forall c, country_code (Some c) <> None -> ~ In c (map fst (t_countries t)) -> get_country d (Some c) = Ok None) /\
  snd (d_countries d) = N.of_nat (length (t_countries t)).
Proof. exact database_countries. Qed.
Print Assumptions C61_countries.
(** A country whose code is not valid ends the command. *)
Theorem C61_invalid : forall vendor description license t c k s, In (c, (k, s)) (t_countries t) -> country_code (Some c) = None ->
  handle_write vendor description license t = None.
Proof. exact invalid_country. Qed.
Print Assumptions C61_invalid.
Definition country_is (d : db) (c s : cstr) : bool :=
  match get_country d (Some c) with
  | Ok (Some y) => match country_get_name y with Ok (Some x) => cstr_eqb x s | _ => false end
  | _ => false
  end.
Example C61_case : keys_ok a_tables /\ exists w w' f d, program 0 (fun _ => true) None None a_write = Ok w /\
    write_to 0 (fun _ => true) None None w save0 = Ok (0%Z, w', f) /\
    N.of_nat (length f) < 2 ^ 32 /\ s_now save0 < 2 ^ 64 /\ db_open f = Ok d /\
    (country_is d (txt "DE") (txt "Germany") && country_is d (txt "FR") (txt "France") &&
     match get_country d (Some (txt "IT")) with Ok None => true | _ => false end &&
     match handle_write None None None (mkTables [] [] [] [] [] [] [] [] [] [] [(txt "XK", (txt "EU", txt "Kosovo"))]) with None => true | Some _ => false end)%bool = true.
Proof. split; [exact a_keys|]. apply a_case. vm_compute. reflexivity. Qed.
