(** Model of /repo/src/options-parser.cpp *)

From Coq Require Import ZArith List String Ascii Bool.
From Verif Require Import Base Formatter.
Import ListNotations.
Open Scope string_scope.

(** GenOptions, options-parser.h 17-56; the first three come with a "was given" flag *)
Record options := {
  o_dbc : string * bool;
  o_out : string * bool;
  o_drv : string * bool;
  o_rw : bool; o_nodeutils : bool; o_help : bool; o_noinc : bool; o_noconfig : bool;
  o_nofmon : bool; o_driverdir : bool; o_gendate : bool
}.

(** value initialisation of retpairs, options-parser.cpp 10 *)
Definition no_options : options :=
  {| o_dbc := ("", false); o_out := ("", false); o_drv := ("", false); o_rw := false;
     o_nodeutils := false; o_help := false; o_noinc := false; o_noconfig := false;
     o_nofmon := false; o_driverdir := false; o_gendate := false |}.

(** argv[i][0] == '-' *)
Definition is_key (a : string) : bool :=
  match a with String c _ => Ascii.eqb c "-" | EmptyString => false end.

(** the collecting loop, options-parser.cpp 13-33.  argc is the length of the list. *)
Fixpoint collect_pairs (argv : list string) : list (string * string) :=
  match argv with
  | [] => []
  | a :: r =>
      if is_key a then
        match r with
        | [] => [(a, "")]
        | b :: r' => if is_key b then (a, "") :: collect_pairs r else (a, b) :: collect_pairs r'
        end
      else collect_pairs r
  end.

(** one round of the loop options-parser.cpp 35-88 *)
Definition set_option (o : options) (kv : string * string) : options :=
  let '(k, v) := kv in
  let '{| o_dbc := dbc; o_out := out; o_drv := drv; o_rw := rw; o_nodeutils := nu; o_help := hp;
          o_noinc := ni; o_noconfig := nc; o_nofmon := nf; o_driverdir := dd;
          o_gendate := gd |} := o in
  if String.eqb k "-dbc" then Build_options (v, true) out drv rw nu hp ni nc nf dd gd
  else if String.eqb k "-out" then Build_options dbc (v, true) drv rw nu hp ni nc nf dd gd
  else if String.eqb k "-drvname" then
    let n := make_c_name v in
    Build_options dbc out (n, negb (String.length n =? 0)%nat) rw nu hp ni nc nf dd gd
  else if String.eqb k "-rw" then Build_options dbc out drv true nu hp ni nc nf dd gd
  else if String.eqb k "-nodeutils" then Build_options dbc out drv rw true hp ni nc nf dd gd
  else if String.eqb k "-help" then Build_options dbc out drv rw nu true ni nc nf dd gd
  else if String.eqb k "-noinc" then Build_options dbc out drv rw nu hp true nc nf dd gd
  else if String.eqb k "-noconfig" then Build_options dbc out drv rw nu hp ni true nf dd gd
  else if String.eqb k "-nofmon" then Build_options dbc out drv rw nu hp ni nc true dd gd
  else if String.eqb k "-driverdir" then Build_options dbc out drv rw nu hp ni nc nf true gd
  else if String.eqb k "-gendate" then Build_options dbc out drv rw nu hp ni nc nf dd true
  else o.

(** GetOptions, options-parser.cpp 4-92 *)
Definition get_options (argv : list string) : options :=
  fold_left set_option (collect_pairs argv) no_options.

(** AreParamsValid, app.cpp 256-259 *)
Definition params_valid (o : options) : bool :=
  snd (o_dbc o) && snd (o_out o) && snd (o_drv o) && negb (o_help o).
