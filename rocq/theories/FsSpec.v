(** What the theorems about written files talk about: where a run puts its files. *)

From Coq Require Import ZArith NArith List String Ascii Bool.
From Verif Require Import Base Types Formatter Settings MainGen UtilGen Scanner Options FsModel App.
Import ListNotations.
Open Scope string_scope.

(** the output directory of a run *)
Definition out_dir (o : options) : string :=
  if o_driverdir o then combine_path (fst (o_out o)) (fst (o_drv o)) else fst (o_out o).

(** the text of the DBC file *)
Definition dbc_text (f : fs) (o : options) : string :=
  match look f (norm (fst (o_dbc o))) with Some (File t) => t | _ => "" end.

(** nodes that send or receive a message *)
Definition is_node (d : dbclist) (n : string) : Prop := exists m, In m (d_msgs d) /\ (In n (g_trans m) \/ In n (g_recs m)).

(** [listed o d dir name]: with these options and this data base the file [name] is written in the sub-directory [dir] *)
Inductive listed (o : options) (d : dbclist) : string -> string -> Prop :=
| l_core : forall x, In x [".h"; ".c"; "-fmon.h"] -> listed o d "lib" (str_tolower (fst (o_drv o)) ++ x)
| l_fmon : o_nofmon o = false -> listed o d "usr" (str_tolower (fst (o_drv o)) ++ "-fmon.c")
| l_config : o_noconfig o = false -> listed o d "conf" (str_tolower (fst (o_drv o)) ++ "-config.h")
| l_dbccode : o_noconfig o = false -> listed o d "conf" "dbccodeconf.h"
| l_inc : o_noinc o = false -> listed o d "inc" "canmonitorutil.h"
| l_util : forall x, o_nodeutils o = false -> In x [".h"; ".c"] -> listed o d "butl" (str_tolower (fst (o_drv o)) ++ "-binutil" ++ x)
| l_node : forall n x, o_nodeutils o = true -> is_node d n -> In x [".h"; ".c"] ->
    listed o d "butl" (str_tolower (n ++ "_" ++ fst (o_drv o)) ++ "-binutil" ++ x).

Definition sub_dirs : list string := ["lib"; "usr"; "inc"; "conf"; "butl"].

(** the name of a numbered sub-directory *)
Definition numbered (o : options) (k : nat) : string :=
  out_dir o ++ (match last_char (out_dir o) with Some c => if Ascii.eqb c "/" then "" else "/" | None => "/" end) ++ d03 k.

(** directories that a run can create *)
Definition run_dir (o : options) (q : path) : Prop :=
  (o_rw o = true /\ q = norm (out_dir o)) \/ (o_rw o = false /\ exists k, (k < 1000)%nat /\ q = norm (numbered o k)) \/
  exists s, In s sub_dirs /\ q = (norm (out_dir o) ++ [s])%list.

(** file names without a separator *)
Definition no_slash (s : string) : Prop := all_chars (fun c => negb (Ascii.eqb c "/")) s = true.
(** no node name contains a separator *)
Definition plain_nodes (o : options) (d : dbclist) : Prop := o_nodeutils o = true -> forall n, is_node d n -> no_slash n.

(** the files of one run: the texts of the two generators with their paths *)
Definition run_files (srt : sorter) (now : string) (o : options) (d : dbclist) : res (list (string * string) * list (string * string)) :=
  do main <- generate_main srt d (app_settings o now d); Ok (main, util_files srt d (app_settings o now d) (o_nodeutils o) (fst (o_drv o))).

(** ** One writer: texts and the paths they are flushed to, in order *)

(** the last text for a path *)
Fixpoint last_text (q : path) (l : list (string * string)) : option string :=
  match l with
  | [] => None
  | (p, t) :: r => match last_text q r with Some u => Some u | None => if path_eqb q (norm p) then Some t else None end
  end.
