(** Model of /repo/src/app.cpp: from the command line to the files. *)

From Coq Require Import ZArith NArith List String Ascii Bool.
From Verif Require Import Base Types Formatter Settings MainGen UtilGen Scanner Options FsModel.
Import ListNotations.
Open Scope string_scope.

Definition is_sep (c : ascii) : bool := Ascii.eqb c "/" || Ascii.eqb c (ch 92).

(** ExtractFileName, app.cpp 20-29 *)
Fixpoint extract_file_name_from (rcur : string) (s : string) : string :=
  match s with
  | EmptyString => rev_string rcur
  | String c r => if is_sep c then extract_file_name_from "" r
                  else extract_file_name_from (String c rcur) r
  end.
Definition extract_file_name (s : string) : string := extract_file_name_from "" s.

(** CombinePath, app.cpp 35-59 *)
Definition combine_path (path folder : string) : string :=
  let pe := match last_char path with Some c => is_sep c | None => false end in
  let fs := match first_char folder with Some c => is_sep c | None => false end in
  if pe && fs then path ++ substring 1 (String.length folder) folder
  else if negb pe && negb fs then path ++ "/" ++ folder
  else path ++ folder.

(** version.h *)
Definition common_info (gendate : option string) : string :=
  "// Generator version : v3.1" ++ nl
    ++ match gendate with
       | Some t => "// Generation time   : " ++ t ++ nl
       | None => ""
       end.
Definition driver_info (dbc : string) : string :=
  "// DBC filename      : " ++ extract_file_name dbc ++ nl.

(** the node list, app.cpp 159-188 *)
Definition node_names (msgs : list message) : list string :=
  fold_left (fun l m => fold_left add_new (g_recs m) (fold_left add_new (g_trans m) l)) msgs [].

(** the message groups of a node, app.cpp 207-228, and of the common utilities, 238-243 *)
Definition node_groups (msgs : list message) (node : string) : msgclass :=
  {| k_both := [];
     k_rx := map g_id (filter (fun m => smem node (g_recs m)) msgs);
     k_tx := map g_id (filter (fun m => smem node (g_trans m)) msgs) |}.
Definition all_groups (msgs : list message) : msgclass :=
  {| k_both := []; k_rx := map g_id msgs; k_tx := [] |}.

(** the utility files, app.cpp 155-249.  CiUtilGenerator gets the driver name as given. *)
Definition util_files (srt : sorter) (d : dbclist) (s : settings) (nodeutils : bool)
           (drv : string) : list (string * string) :=
  if nodeutils then
    flat_map (fun node => generate_util srt d (node_settings s node drv)
                            (node_groups (d_msgs d) node) drv)
             (node_names (d_msgs d))
  else generate_util srt d s (all_groups (d_msgs d)) drv.

(** the settings, app.cpp 107-144.  [now] is the formatted date. *)
Definition app_settings (o : options) (now : string) (d : dbclist) : settings :=
  let out := fst (o_out o) in
  let drv := fst (o_drv o) in
  configure drv (if o_driverdir o then combine_path out drv else out)
            (common_info (if o_gendate o then Some now else None))
            (driver_info (fst (o_dbc o)))
            (d_verhi d) (d_verlow d) (o_noconfig o) (o_noinc o) (o_nofmon o).

(** GenerateCode, app.cpp 76-252.  A DBC path naming a directory reads as an empty text. *)
Definition generate_code (srt : sorter) (now : string) (o : options) (f : fs) : res fs :=
  if negb (exists_path f (fst (o_dbc o))) then Ok f
  else
    let text := match look f (norm (fst (o_dbc o))) with Some (File t) => t | _ => "" end in
    do d <- scan srt text;
    let s := app_settings o now d in
    do p <- prepare_directory f s (o_rw o);
    let '(f, ret) := p in
    if ret then
      do main <- generate_main srt d s;
      let '(f, _) := flush_files (f, "") main in
      let '(f, _) := flush_files (f, "") (util_files srt d s (o_nodeutils o) (fst (o_drv o))) in
      Ok f
    else Ok f.

(** CoderApp::Run, app.cpp 61-73, with maincli.cpp: without valid parameters only help is printed *)
Definition run (srt : sorter) (now : string) (argv : list string) (f : fs) : res fs :=
  let o := get_options argv in
  if params_valid o then generate_code srt now o f else Ok f.
