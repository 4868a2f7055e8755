(** The other files of a driver: monitor functions, configuration, common types.  What they mean to a C compiler,
    comments removed. *)

From Coq Require Import ZArith NArith List String Ascii Bool.
From Verif Require Import Base CSyntax CSem CRun Types Formatter Settings MainGen App PPProof MsgSpec DriverSpec StructSpec.
Import ListNotations.
Open Scope string_scope.

(** ** Comments (translation phase 3 of C) *)

Inductive cpos := Code | Slash | InBlock | Star | InLine | InStr | Escape.
(** what a character contributes, and where the text is after it *)
Definition ustep (p : cpos) (c : ascii) : string * cpos :=
  let code c := if Ascii.eqb c DQ then InStr else Code in
  match p with
  | Code => if Ascii.eqb c "/" then ("", Slash) else (String c "", code c)
  | Slash => if Ascii.eqb c "*" then ("", InBlock) else if Ascii.eqb c "/" then ("", InLine) else (String "/" (String c ""), code c)
  | InBlock => ("", if Ascii.eqb c "*" then Star else InBlock)
  | Star => if Ascii.eqb c "/" then (" ", Code) else ("", if Ascii.eqb c "*" then Star else InBlock)
  | InLine => if Ascii.eqb c NL then (String c "", Code) else ("", InLine)
  | InStr => (String c "", if Ascii.eqb c DQ then Code else if Ascii.eqb c "\" then Escape else InStr)
  | Escape => (String c "", InStr)
  end.
Fixpoint uncomment_from (p : cpos) (t : string) : string :=
  match t with
  | EmptyString => match p with Slash => "/" | _ => "" end
  | String c r => let '(s, q) := ustep p c in s ++ uncomment_from q r
  end.
(** a block comment becomes a blank, a line comment ends before its line feed *)
Definition uncomment (t : string) : string := uncomment_from Code t.

(** ** The files of one run *)

Record emitted (drv : string) (d : dbclist) (s : settings) (fs : list (string * string)) : Prop := {
  em_run : exists srt out date dbc hi low nc ni nf,
    sorts srt /\ match date with Some t => no_nl t = true | None => True end /\ no_nl dbc = true /\
    (0 <= hi < 2 ^ 32)%Z /\ (0 <= low < 2 ^ 32)%Z /\
    s = configure drv out (common_info date) (driver_info dbc) hi low nc ni nf /\ generate_main srt d s = Ok fs;
  em_drv : is_ident drv = true /\ (String.length drv <= 900)%nat;
  em_names : forall m, In m (d_msgs d) -> is_ident (g_name m) = true /\ (String.length (g_name m) <= 1000)%nat
}.

Definition macros_after (M : list (string * macro)) (t : string) : list (string * macro) := pp_macros (pp_run M (lines (uncomment t))).
Definition toks_of (M : list (string * macro)) (t : string) : list tok := source_toks M (uncomment t).

(** ** Monitors *)

(** what Unpack of a message calls when monitors are on (mn_hook in DriverSpec) *)
Definition hook_name (drv : string) (m : message) : string := "FMon_" ++ g_name m ++ "_" ++ str_tolower drv.
Definition mono_on (drv : string) (M : list (string * macro)) : bool := defined (str_toupper drv ++ "_USE_MONO_FMON") M.
Definition monitors_wanted (drv : string) (M : list (string * macro)) : bool := defined (str_toupper drv ++ "_USE_DIAG_MONITORS") M.
(** the function behind it: one for all messages, or one for each *)
Definition hook_fun (drv : string) (M : list (string * macro)) (m : message) : string :=
  if mono_on drv M then "_FMon_MONO_" ++ str_tolower drv else "_FMon_" ++ g_name m ++ "_" ++ str_tolower drv.
(** #define hook(x, y) f((x), (y)) *)
Definition hook_macro (f : string) : macro :=
  {| m_params := Some ["x"; "y"];
     m_body := [TId f; TP PLpar; TP PLpar; TId "x"; TP PRpar; TP PComma; TP PLpar; TId "y"; TP PRpar; TP PRpar] |}.
(** void f(FrameMonitor_t* _mon, uint32_t msgid) *)
Definition hook_head (f : string) : list tok :=
  [TId "void"; TId f; TP PLpar; TId "FrameMonitor_t"; TP (PBin OMul); TId "_mon"; TP PComma; TId "uint32_t"; TId "msgid"; TP PRpar].
(** a function that does nothing *)
Definition idle_fun (f : string) (fd : fundef) : Prop :=
  fd_head fd = hook_head f /\
  parse_stmts (fd_body fd) = Some [SExpr (EUn (UCast "void") (EId "_mon")); SExpr (EUn (UCast "void") (EId "msgid"))].
(** the functions that have to exist *)
Definition hook_funs (drv : string) (M : list (string * macro)) (d : dbclist) : list string :=
  if monitors_wanted drv M then
    if mono_on drv M then ["_FMon_MONO_" ++ str_tolower drv] else map (fun m => "_FMon_" ++ g_name m ++ "_" ++ str_tolower drv) (d_msgs d)
  else [].

(** ** Configuration *)

(** the macros a user may switch on *)
Definition switches (drv : string) : list string :=
  map (fun x => str_toupper drv ++ x)
    ["_USE_BITS_SIGNAL"; "_USE_CANSTRUCT"; "_USE_SIGFLOAT"; "_USE_DIAG_MONITORS"; "_AUTO_ROLL"; "_AUTO_CSM"; "_USE_MONO_FMON"].
(** removes the comment marks around the definitions that are switched on, line by line *)
Definition switch_line (drv : string) (on : string -> bool) (l : string) : string :=
  match find (fun x => String.eqb l ("/* #define " ++ x ++ " */")) (switches drv) with
  | Some x => if on x then "#define " ++ x else l
  | None => l
  end.
Definition switched (drv : string) (on : string -> bool) (t : string) : string :=
  sconcat (map (fun l => switch_line drv on l ++ nl) (lines t)).
(** #define x *)
Definition flag : macro := {| m_params := None; m_body := [] |}.

(** ** The frame monitor *)

Definition u32_member (x : string) : mdecl := {| md_type := "uint32_t"; md_name := x; md_bits := None |}.
Definition u32_flag (x : string) : mdecl := {| md_type := "uint32_t"; md_name := x; md_bits := Some 1%Z |}.
Definition monitor_members : list mdecl :=
  [u32_member "last_cycle"; u32_member "timeout_cycle"; u32_member "frame_cnt";
   u32_flag "roll_error"; u32_flag "csm_error"; u32_flag "cycle_error"; u32_flag "dlc_error"].
(** the member mon1 of a message struct has these members *)
Definition monitor_object (m : mem) (ms : list mdecl) : Prop :=
  forall d t, In d ms -> member_ty d = Some t -> has_type m (mon_path (md_name d)) t.

(** ** The call *)

(** FMon_X_drv(&_m->mon1, X_CANID); *)
Definition hook_call (drv : string) (m : message) : list tok :=
  [TId (hook_name drv m); TP PLpar; TP (PBin OAnd); TId "_m"; TP PArrow; TId "mon1"; TP PComma; TId (g_name m ++ "_CANID"); TP PRpar; TP PSemi].
(** the version macros of the monitor header *)
Definition ver_macro (drv : string) (x : string) : Prop := x = "VER_" ++ str_toupper drv ++ "_MAJ_FMON" \/ x = "VER_" ++ str_toupper drv ++ "_MIN_FMON".
