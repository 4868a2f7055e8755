(** Scaled signals in an emitted program. *)

From Coq Require Import ZArith NArith List String Ascii Bool.
From Verif Require Import Base Dbl CSyntax CSem CRun Types Formatter LineParser Settings MainGen App CodecSpec MsgSpec DriverSpec HeaderSpec
  ScanSpec CodecEnv ConvSpec.
Import ListNotations.
Open Scope Z_scope.

(** the signal was declared by a signal line *)
Definition declared (sg : signal) : Prop :=
  exists line sg0, parse_signal_line line = Ok (Some sg0) /\ same_signal sg sg0.

Definition fromS_name (e : env) (sg : signal) : string := (n_DRV (e_g e) ++ "_" ++ s_name sg ++ "_fromS")%string.
Definition toS_name (e : env) (sg : signal) : string := (n_DRV (e_g e) ++ "_" ++ s_name sg ++ "_toS")%string.

(** all scaled signals of this name are scaled in the same way *)
Definition own_scaling (d : dbclist) (sg : signal) : Prop :=
  forall m sg', In m (d_msgs d) -> In sg' (g_sigs m) -> s_simple sg' = false -> s_name sg' = s_name sg ->
    s_factor sg' = s_factor sg /\ s_offset sg' = s_offset sg /\ s_double sg' = s_double sg /\ s_typero sg' = s_typero sg.

Record scaled_in (e : env) (msg : message) (sg : signal) : Prop := {
  sc_prog : program e;
  sc_msg : In msg (d_msgs (e_db e)) /\ g_notempty msg = true;
  sc_sig : In sg (g_sigs msg) /\ s_simple sg = false;
  sc_own : own_scaling (e_db e) sg;
  sc_once : once (fromS_name e sg) (e_h e) /\ once (toS_name e sg) (e_h e)
}.

(** what the code of Unpack and of Pack evaluates for a scaled signal *)
Definition phys_expr (e : env) (sg : signal) : expr :=
  EUn (UCast (if s_double sg then "sigfloat_t" else print_type (s_typephys sg)))
    (ECall (fromS_name e sg) [EFld true (EId "_m") (s_name sg)]).
Definition raw_expr (e : env) (sg : signal) : expr :=
  EUn (UCast (print_type (s_typero sg))) (ECall (toS_name e sg) [EFld true (EId "_m") (s_namefloat sg)]).

(** the member [x] of the struct is an object of type [t] that holds [v] *)
Definition holds (m : mem) (x : string) (t : lty) (v : cval) : Prop :=
  m_scal m (member x) = Some (t, v) /\ to_obj t v = Ok v /\ m_arr m (member x) = None.
(** the member of a signal holds the raw value [z] *)
Definition holds_raw (bits : bool) (m : mem) (sg : signal) (z : Z) : Prop :=
  exists t, holds m (s_name sg) (field_ty bits sg) (VI t z).

(** C computes with the promoted type of the field; [z] * [F] and the sum are in its range when it is signed,
    and when it is unsigned the wrapped sum is good enough for the physical type *)
Definition no_wrap (sg : signal) (F O z : Z) : Prop :=
  let t := promote (s_typero sg) in
  if is_signed t then can_hold t (z * F) /\ can_hold t (z * F + O)
  else width (s_typephys sg) <= width t \/ can_hold t (z * F + O).
(** the same for the way back *)
Definition no_wrap_back (sg : signal) (F z : Z) : Prop :=
  let t := promote (s_typephys sg) in if is_signed t then can_hold t (z * F) /\ can_hold t z else 0 < F.

(** literals of this size are of type int *)
Definition int_literal (z : Z) : Prop := - 2 ^ 31 < z < 2 ^ 31.
