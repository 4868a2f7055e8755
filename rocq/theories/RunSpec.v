(** What the theorems about whole runs of the tool talk about: a DBC file in the file system, the run, and the files afterwards. *)

From Coq Require Import ZArith NArith List String Ascii Bool.
From Verif Require Import Base Dbl CSyntax CSem CRun Types Formatter Settings MainGen UtilGen Scanner Options FsModel App CodecSpec MsgSpec PPProof DriverSpec HeaderSpec
  CodecEnv StructSpec UtilSpec SigSpec DeclSpec FsSpec RecvSpec.
Import ListNotations.
Open Scope string_scope.

(** the file [name] of the sub-directory [dir] of the output directory holds the text [t] *)
Definition holds (o : options) (f : fs) (dir name t : string) : Prop := look f (norm (out_dir o) ++ [dir; name])%list = Some (File t).

(** A run of the tool on the file [bs]: the command line names a driver, an output directory and the DBC file; the date and the
    name of the DBC file have no line breaks; a numbered directory is free unless the files are to be rewritten; the file
    system refuses none of the files. *)
Record tool_run (srt : sorter) (now : string) (argv : list string) (bs : list block) (f f' : fs) : Prop := {
  tr_run : run srt now argv f = Ok f';
  tr_valid : params_valid (get_options argv) = true;
  tr_dbc : look f (norm (fst (o_dbc (get_options argv)))) = Some (File (file_text bs)) /\ exists_path f (fst (o_dbc (get_options argv))) = true;
  tr_names : no_nl now = true /\ no_nl (fst (o_dbc (get_options argv))) = true;
  tr_free : o_rw (get_options argv) = false -> exists k, (k < 1000)%nat /\ is_dir f (norm (numbered (get_options argv) k)) = false;
  tr_open : forall d dir name, scan srt (file_text bs) = Ok d -> listed (get_options argv) d dir name ->
    fs_deny f (norm (out_dir (get_options argv)) ++ [dir; name])%list = false /\ is_dir f (norm (out_dir (get_options argv)) ++ [dir; name])%list = false
}.

(** the utilities that the run makes: those of the nodes with -nodeutils, else those of the whole driver; the name of a node must
    differ from other nodes' names in more than the case of letters, and its functions need a proper name *)
Definition wanted (o : options) (d : dbclist) (who : option string) : Prop :=
  match who with
  | None => o_nodeutils o = false
  | Some n => o_nodeutils o = true /\ is_node d n /\ (forall n', is_node d n' -> str_tolower n' = str_tolower n -> n' = n)
  end /\ is_ident (util_name (fst (o_drv o)) who) = true /\ (String.length (util_name (fst (o_drv o)) who) <= 2000)%nat.

(** the program made of a header and a source in some configuration, with the functions and macros of an application *)
Definition made_of (o : options) (now : string) (d : dbclist) (h c : string) (e : env) : Prop :=
  e_drv e = fst (o_drv o) /\ e_g e = st_g (app_settings o now d) /\ e_db e = d /\ e_h e = h /\ e_src e = c /\ locals_free (e_conf e).

(** the files of a run: header and source of the driver, header and source of the utilities [who] *)
Definition left_files (o : options) (f : fs) (who : option string) (h c hu cu : string) : Prop :=
  let drv := fst (o_drv o) in
  holds o f "lib" (str_tolower drv ++ ".h") h /\ holds o f "lib" (str_tolower drv ++ ".c") c /\
  holds o f "butl" (util_name drv who ++ "-binutil.h") hu /\ holds o f "butl" (util_name drv who ++ "-binutil.c") cu.
