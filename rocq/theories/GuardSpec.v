(** What the theorems about the files of one run talk about: conditions of #if, #error lines, prototypes and calls. *)

From Coq Require Import ZArith List String Ascii Bool.
From Verif Require Import Base Dbl CSyntax CSem CRun Types Settings MainGen App CodecSpec MsgSpec DriverSpec HeaderSpec UtilSpec.
Import ListNotations.
Open Scope string_scope.

(** ** #if and #error *)

Definition no_mem : mem := {| m_scal := fun _ => None; m_arr := fun _ => None |}.
(** value of the condition of an #if line; [None] when it is no integer expression *)
Definition cond_value (M : list (string * macro)) (rest : string) : option Z :=
  match parse_expr rest with
  | Some e => match eval 1 (leaf_ctx M) no_mem [] e with Ok (VI _ v) => Some v | _ => None end
  | None => None
  end.

(** the preprocessor with conditions: an #if counts as true unless its condition is known to be zero;
    collects the texts of the active #error lines *)
Definition err_line (st : ppstate * list string) (l : string) : ppstate * list string :=
  let '(p, er) := st in
  match directive l with
  | Some (d, rest) =>
      if String.eqb d "if" then
        (pp_push (match cond_value (pp_macros p) rest with Some 0%Z => false | _ => true end) p, er)
      else if String.eqb d "error" then (p, if pp_active p then er ++ [rest] else er)%list
      else (pp_line p l, er)
  | None => (pp_line p l, er)
  end.
Definition errors (M : list (string * macro)) (t : string) : list string :=
  snd (fold_left err_line (lines t) ({| pp_macros := M; pp_stack := []; pp_out := [] |}, [])).

(** ** Prototypes and calls *)

(** the tokens stand next to each other in the list *)
Definition within {A} (x l : list A) : Prop := exists a b, l = (a ++ x ++ b)%list.

(** uint32_t Unpack_X_drv(X_t* _m, const uint8_t* _d, uint8_t dlc_); *)
Definition unpack_proto (drv : string) (m : message) : list tok :=
  [TId "uint32_t"; TId (unpack_name drv m); TP PLpar; TId (g_name m ++ "_t"); TP (PBin OMul); TId "_m";
   TP PComma; TId "const"; TId "uint8_t"; TP (PBin OMul); TId "_d"; TP PComma; TId "uint8_t";
   TId "dlc_"; TP PRpar; TP PSemi].

(** the names in front of an opening parenthesis *)
Fixpoint call_names (l : list tok) : list string :=
  match l with
  | [] => []
  | TId x :: r => match r with TP PLpar :: _ => [x] | _ => [] end ++ call_names r
  | _ :: r => call_names r
  end.

(** the names of the files that a text includes with quotes *)
Definition included (t : string) : list string :=
  flat_map (fun l => match directive l with
                     | Some (d, String q r) =>
                         if String.eqb d "include" && Ascii.eqb q """" then [fst (span (fun c => negb (Ascii.eqb c """")) r)] else []
                     | _ => []
                     end) (lines t).
