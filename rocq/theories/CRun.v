(** Running pieces of C text: function definitions of a translation unit, calls of pure functions,
    execution of a function body.  Nothing here depends on the generator. *)

From Coq Require Import ZArith NArith List String Ascii Bool.
From Verif Require Import Base Dbl CSyntax CSem.
Import ListNotations.
Open Scope Z_scope.

(** ** Function definitions *)

(** tokens before the opening brace, tokens between the braces *)
Record fundef := { fd_head : list tok; fd_body : list tok }.

Record fstate := {
  fs_depth : nat;
  fs_head : list tok;          (* reversed *)
  fs_body : list tok;          (* reversed *)
  fs_out : list fundef         (* reversed *)
}.

Definition fstep (s : fstate) (t : tok) : fstate :=
  let push := {| fs_depth := fs_depth s; fs_head := fs_head s; fs_body := t :: fs_body s;
                 fs_out := fs_out s |} in
  match fs_depth s with
  | O =>
      match t with
      | TP PLbrace => {| fs_depth := 1; fs_head := fs_head s; fs_body := []; fs_out := fs_out s |}
      | TP PSemi => {| fs_depth := 0; fs_head := []; fs_body := []; fs_out := fs_out s |}
      | _ => {| fs_depth := 0; fs_head := t :: fs_head s; fs_body := []; fs_out := fs_out s |}
      end
  | S d =>
      match t with
      | TP PLbrace => {| fs_depth := S (S d); fs_head := fs_head s; fs_body := t :: fs_body s;
                         fs_out := fs_out s |}
      | TP PRbrace =>
          match d with
          | O => {| fs_depth := 0; fs_head := []; fs_body := [];
                    fs_out := {| fd_head := rev (fs_head s); fd_body := rev (fs_body s) |}
                                :: fs_out s |}
          | S _ => {| fs_depth := d; fs_head := fs_head s; fs_body := t :: fs_body s;
                      fs_out := fs_out s |}
          end
      | _ => push
      end
  end.

Definition fstart : fstate := {| fs_depth := 0; fs_head := []; fs_body := []; fs_out := [] |}.

(** all function definitions, in order *)
Definition fundefs (l : list tok) : list fundef := rev (fs_out (fold_left fstep l fstart)).

(** the declared name: the identifier in front of the first parenthesis *)
Fixpoint head_name (l : list tok) : option string :=
  match l with
  | TId x :: (TP PLpar :: _) as r => Some x
  | _ :: r => head_name r
  | [] => None
  end.

(** parameter declarations "type name, type name)": names with their type when it is a plain type
    name *)
Fixpoint head_params (l : list tok) : list (string * string) :=
  match l with
  | TId ty :: ((TId x :: _) as r) =>
      if is_typename ty then (ty, x) :: head_params r else head_params r
  | _ :: r => head_params r
  | [] => []
  end.
Fixpoint after_paren (l : list tok) : list tok :=
  match l with
  | TP PLpar :: r => r
  | _ :: r => after_paren r
  | [] => []
  end.

Fixpoint find_fun (x : string) (l : list fundef) : option fundef :=
  match l with
  | [] => None
  | f :: r =>
      match head_name (fd_head f) with
      | Some y => if String.eqb x y then Some f else find_fun x r
      | None => find_fun x r
      end
  end.

(** ** Calls of functions that take and return numbers *)

Definition empty_mem : mem := {| m_scal := fun _ => None; m_arr := fun _ => None |}.

Fixpoint bind_params (c : ctx) (ps : list (string * string)) (vs : list arg) (m : mem) : res mem :=
  match ps, vs with
  | [], [] => Ok m
  | (ty, x) :: ps', AVal v :: vs' =>
      match c_types c ty with
      | Some t => do w <- to_obj t v; bind_params c ps' vs' (set_scal m x (t, w))
      | None => UB "unknown type"
      end
  | _, _ => UB "arguments"
  end.

(** return type: the last type name before the function name *)
Fixpoint head_ret (l : list tok) : option string :=
  match l with
  | TId ty :: ((TId x :: TP PLpar :: _)) => Some ty
  | _ :: r => head_ret r
  | [] => None
  end.

Definition call_pure (n : nat) (c : ctx) (f : fundef) (vs : list arg) : res cval :=
  do m <- bind_params c (head_params (after_paren (fd_head f))) vs empty_mem;
  match parse_stmts (fd_body f), head_ret (fd_head f) with
  | Some ss, Some ty =>
      do r <- exec_list n c m ss;
      match snd r, c_types c ty with
      | Some v, Some t => to_obj t v
      | _, _ => UB "no value returned"
      end
  | _, _ => UB "syntax"
  end.

(** ** Running text *)

(** a sequence of statements given as text, under the macros of the context *)
Definition run_text (n : nat) (c : ctx) (m : mem) (t : string) : res (mem * option cval) :=
  match parse_stmts (source_toks (c_macros c) t) with
  | Some ss => exec_list n c m ss
  | None => UB "syntax error"
  end.

(** ** Translation units *)

Record cunit := { u_macros : list (string * macro); u_funs : list fundef }.

(** preprocesses a text with some macros already defined, then collects its functions *)
Definition compile (ms : list (string * macro)) (t : string) : cunit :=
  let st := pp_run ms (lines t) in
  {| u_macros := pp_macros st;
     u_funs := fundefs (List.concat (map lex (rev (pp_out st)))) |}.

(** runs the body of a function of the unit; parameters are objects of the memory *)
Definition run_fun (n : nat) (c : ctx) (fs : list fundef) (x : string) (m : mem)
  : res (mem * option cval) :=
  match find_fun x fs with
  | None => UB "undefined function"
  | Some f =>
      match parse_stmts (fd_body f) with
      | Some ss => exec_list n c m ss
      | None => UB "syntax error"
      end
  end.
