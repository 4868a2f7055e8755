(** Struct declarations in an emitted header, and the objects they describe. *)

From Coq Require Import ZArith NArith List String Ascii Bool.
From Verif Require Import Base Dbl CSyntax CSem CRun Types Formatter SigPrinter Settings MainGen App CodecSpec MsgSpec DriverSpec HeaderSpec NamesSpec CodecEnv.
Import ListNotations.
Open Scope string_scope.

(** ** Reading C *)

(** lines joined by a backslash at the end of a line (translation phase 2 of C) *)
Fixpoint splice (t : string) : string :=
  match t with
  | String c (String d r as s) => if Ascii.eqb c "\" && Ascii.eqb d NL then splice r else String c (splice s)
  | _ => t
  end.

(** tokens of a text after preprocessing *)
Definition text_toks (M : list (string * macro)) (h : string) : list tok :=
  List.concat (map lex (rev (pp_out (pp_run M (lines (splice h)))))).

(** type name, name and bit-field width of a member *)
Record mdecl := { md_type : string; md_name : string; md_bits : option Z }.
Fixpoint parse_members (l : list tok) : option (list mdecl) :=
  match l with
  | [] => Some []
  | TId t :: TId x :: TP PSemi :: r =>
      match parse_members r with Some ms => Some ({| md_type := t; md_name := x; md_bits := None |} :: ms) | None => None end
  | TId t :: TId x :: TP PColon :: TInt _ w :: TP PSemi :: r =>
      match parse_members r with Some ms => Some ({| md_type := t; md_name := x; md_bits := Some w |} :: ms) | None => None end
  | _ => None
  end.
(** typedef struct { members } x; *)
Definition declares (ts : list tok) (x : string) (ms : list mdecl) : Prop :=
  exists a b mt, ts = (a ++ [TId "typedef"; TId "struct"; TP PLbrace] ++ mt ++ [TP PRbrace; TId x; TP PSemi] ++ b)%list /\ parse_members mt = Some ms.

(** object type of a member; none for other structs *)
Definition member_ty (d : mdecl) : option lty :=
  match std_types (md_type d), md_bits d with
  | Some (LInt t), Some w => Some (LBits t w)
  | Some t, None => Some t
  | _, _ => None
  end.
(** [m] contains a struct with these members *)
Definition laid_out (m : mem) (ms : list mdecl) : Prop :=
  forall d t, In d ms -> member_ty d = Some t -> has_type m (member (md_name d)) t.

(** ** What the header has to declare *)

Definition raw_member (bits : bool) (x : string) (sg : signal) : mdecl :=
  {| md_type := print_type (s_typero sg); md_name := x; md_bits := if bits && (s_len sg <? 8)%Z then Some (s_len sg) else None |}.
Definition phys_member (sg : signal) : mdecl :=
  {| md_type := if s_double sg then "sigfloat_t" else print_type (s_typephys sg); md_name := s_namefloat sg; md_bits := None |}.
Definition sig_members (bits floats : bool) (x : string) (sg : signal) : list mdecl :=
  raw_member bits x sg :: (if floats && negb (s_simple sg) then [phys_member sg] else []).
Definition all_members (bits floats rolls mons : bool) (msg : message) : list mdecl :=
  (flat_map (fun sg => sig_members bits floats (s_name sg) sg) (g_sigs msg) ++
   (if rolls then match roll_sig msg with Some sg => sig_members bits floats (s_name sg ++ "_expt") sg | None => [] end else []) ++
   (if mons then [{| md_type := "FrameMonitor_t"; md_name := "mon1"; md_bits := None |}] else []))%list.

(** switches of the configuration that the header tests; entries of value tables are not called like them *)
Definition switches (g : gendesc) : list string := [n_usebits g; n_usesigfloat g; n_useroll g; n_usemon g; n_usestruct g].
Definition switches_kept (e : env) : Prop :=
  forall msg x, In msg (d_msgs (e_db e)) -> In x (entry_names msg) -> ~ In x (switches (e_g e)).
Definition on (e : env) (x : gendesc -> string) : bool := defined (x (e_g e)) (e_conf e).

Definition type_name (msg : message) : string := g_name msg ++ "_t".

(** ** Texts of the data base *)

Definition not_backslash (c : ascii) : bool := negb (Ascii.eqb c "\").
Definition clean (s : string) : Prop := all_chars not_backslash s = true.
(** comments, value tables and units of the data base, and the generator's own information *)
Definition sig_text_clean (sg : signal) : Prop := clean (s_comment sg) /\ clean (s_valtext sg) /\ clean (s_unit sg).
Definition msg_text_clean (m : message) : Prop := clean (g_comment m) /\ forall sg, In sg (g_sigs m) -> sig_text_clean sg.
Definition no_backslashes (e : env) : Prop :=
  clean (n_cominfo (e_g e)) /\ clean (n_drvinfo (e_g e)) /\ forall msg, In msg (d_msgs (e_db e)) -> msg_text_clean msg.

(** ** Alignment of the declarations *)

(** width of the line "  type name : bits;" for a member whose name is [extra] characters longer than
    the signal's *)
Definition decl_width (sg : signal) (extra : nat) : nat :=
  (2 + String.length (print_type (s_typero sg)) + 1 + (String.length (s_name sg) + extra) + (if (s_len sg <? 8)%Z then 4 else 0) + 1)%nat.
(** the column of the comments behind the declarations *)
Definition column (m : message) : nat := (16 + list_max (27 :: map (fun sg => String.length (s_name sg)) (g_sigs m)))%nat.
(** the declaration of the expected counter value ends before it *)
Definition counter_fits (m : message) : Prop := forall rs, roll_sig m = Some rs -> (decl_width rs 5 <= column m)%nat.
(** integer factors and offsets are in the range of int *)
Definition ints_fit (sg : signal) : Prop := s_simple sg = false -> s_double sg = false ->
  exists a b, cast_i32 (s_factor sg) = Ok a /\ cast_i32 (s_offset sg) = Ok b.
