(** Property theorems: command line, names and paths (C35, C36, C49). *)

From Coq Require Import List String Ascii Bool.
From Verif Require Import Base Formatter Options MainGen FsModel App CliSpec CliProof.
Import ListNotations.
Open Scope string_scope.

(** C35: the derived name is empty or a C identifier, identifiers are kept ... *)
Theorem C35_names_are_identifiers : forall s,
  (make_c_name s = "" \/ is_ident (make_c_name s) = true) /\
  (is_ident s = true -> make_c_name s = s).
Proof. exact (fun s => conj (make_c_name_ok s) (make_c_name_id s)). Qed.
Print Assumptions C35_names_are_identifiers.
Example C35_case : make_c_name "9 my driver-1" = "_my_driver1" /\ make_c_name "42" = "".
Proof. split; reflexivity. Qed.

(** ... and a run whose driver name derives to nothing changes no file; an accepted command line
    has an identifier as driver name. *)
Theorem C35_empty_name_refused : forall srt now argv f,
  match last_value "-drvname" argv with Some v => make_c_name v = "" | None => True end ->
  run srt now argv f = Ok f.
Proof. exact run_needs_name. Qed.
Print Assumptions C35_empty_name_refused.
Theorem C35_accepted_name_is_identifier : forall argv,
  params_valid (get_options argv) = true -> is_ident (fst (o_drv (get_options argv))) = true.
Proof. exact valid_name_ident. Qed.
Print Assumptions C35_accepted_name_is_identifier.
Example C35_case_args :
  params_valid (get_options ["-dbc"; "a.dbc"; "-drvname"; "my drv"; "-out"; "o"]) = true
  /\ last_value "-drvname" ["-dbc"; "a.dbc"; "-drvname"; "123"] = Some "123"
  /\ make_c_name "123" = "".
Proof. repeat split; reflexivity. Qed.

(** C36: the options are determined by the last value of each valued option and by the presence
    of each flag. *)
Theorem C36_options_last_wins : forall argv,
  let value k := match last_value k argv with Some v => (v, true) | None => ("", false) end in
  get_options argv
  = {| o_dbc := value "-dbc"; o_out := value "-out";
       o_drv := match last_value "-drvname" argv with
                | Some v => (make_c_name v, negb (String.eqb (make_c_name v) ""))
                | None => ("", false)
                end;
       o_rw := smem "-rw" argv; o_nodeutils := smem "-nodeutils" argv;
       o_help := smem "-help" argv; o_noinc := smem "-noinc" argv;
       o_noconfig := smem "-noconfig" argv; o_nofmon := smem "-nofmon" argv;
       o_driverdir := smem "-driverdir" argv; o_gendate := smem "-gendate" argv |}.
Proof. exact get_options_spec. Qed.
Print Assumptions C36_options_last_wins.

Theorem C36_order_irrelevant : forall a g1 k1 g2 k2 b,
  is_group g1 k1 -> is_group g2 k2 -> k1 <> k2 ->
  match b with [] => True | x :: _ => starts_dash x = true end ->
  get_options (a ++ g1 ++ g2 ++ b) = get_options (a ++ g2 ++ g1 ++ b).
Proof. exact get_options_swap. Qed.
Print Assumptions C36_order_irrelevant.

Theorem C36_unknown_ignored : forall a g k b,
  is_group g k ->
  ~ In k ["-dbc"; "-out"; "-drvname"; "-rw"; "-nodeutils"; "-help"; "-noinc"; "-noconfig";
          "-nofmon"; "-driverdir"; "-gendate"] ->
  match b with [] => True | x :: _ => starts_dash x = true end ->
  get_options (a ++ g ++ b) = get_options (a ++ b).
Proof. exact get_options_unknown. Qed.
Print Assumptions C36_unknown_ignored.
Example C36_case :
  is_group ["-dbc"; "x"] "-dbc" /\ is_group ["-rw"] "-rw" /\ is_group ["-foo"; "1"] "-foo" /\
  last_value "-dbc" ["-dbc"; "x"; "-rw"; "-dbc"; "y"; "z"] = Some "y".
Proof.
  repeat split; try reflexivity; try (left; reflexivity);
    (right; eexists; split; [|reflexivity]; reflexivity).
Qed.

(** C49: exactly one separator stands between output path and driver name; a separator at the
    end of the path or at the start of the name is reused, everything else is kept. *)
Theorem C49_one_separator : forall p f, exists q s g,
  combine_path p f = q ++ String s g /\ sep_char s = true /\
  ((ends_sep p = true /\ p = q ++ String s "") \/ (ends_sep p = false /\ p = q)) /\
  ((exists s', begins_sep f = true /\ f = String s' g) \/ (begins_sep f = false /\ f = g)).
Proof. exact combine_path_spec. Qed.
Print Assumptions C49_one_separator.
Theorem C49_shown_file_name : forall s,
  all_chars (fun c => negb (sep_char c)) (extract_file_name s) = true /\
  exists pre, s = pre ++ extract_file_name s /\ (pre = "" \/ ends_sep pre = true).
Proof. exact extract_file_name_spec. Qed.
Print Assumptions C49_shown_file_name.
Example C49_case : combine_path "out/" "drv" = "out/drv" /\ combine_path "out" "drv" = "out/drv"
  /\ extract_file_name "a/b\test.dbc" = "test.dbc".
Proof. repeat split; reflexivity. Qed.
