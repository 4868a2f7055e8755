(** Descriptors exchanged between parser and generators: /repo/src/types/*.h.
    Numbers are mathematical integers; each producer wraps them to the width of the C++
    field (StartBit, MsgID, Cycle, CsmOp: 32 bits; LengthBit, DLC, IsExt: 8 bits). *)

From Coq Require Import ZArith List String Bool.
From Verif Require Import Base Dbl CSyntax.
Import ListNotations.

(** types/message.h 10-14 *)
Inductive layout := Intel | Motorola.
(** types/message.h 16-21 *)
Inductive mux := MxNone | MxMaster | MxValue.

(** types/message.h 23-33, enum SigType: the integer types of [CSyntax.cty] *)

(** types/message.h 36-94.  Not modelled: RawOffset, MinValue, MaxValue and SigToByte, which
    nothing reads.  [s_typephys] is indeterminate in C++ for floating signals and is not read
    for them. *)
Record signal := {
  s_name : string;
  s_namefloat : string;
  s_unit : string;
  s_start : Z;
  s_len : Z;
  s_double : bool;
  s_simple : bool;
  s_factor : dbl;
  s_offset : dbl;
  s_order : layout;
  s_signed : bool;
  s_typero : cty;
  s_typephys : cty;
  s_recs : list string;
  s_valdefs : list (string * Z);
  s_comment : string;
  s_valtext : string;
  s_mux : mux
}.

(** types/message.h 96-150.  The pointers RollSig and CsmSig point into the signal vector;
    they are indices here.  CsmToByteExpr and CsmByteNum are computed by the generator and live
    in [ciexpr]. *)
Record message := {
  g_name : string;
  g_dlc : Z;
  g_id : Z;
  g_ext : Z;
  g_cycle : Z;
  g_trans : list string;
  g_recs : list string;
  g_sigs : list signal;
  g_hasphys : bool;
  g_notempty : bool;
  g_roll : option nat;
  g_csm : option nat;
  g_csmmethod : string;
  g_csmop : Z;
  g_comment : string
}.

(** types/c-expr.h 8-20 *)
Record ciexpr := {
  x_msg : message;
  x_tosig : list string;
  x_tobytes : list string;
  x_csmexpr : string;
  x_csmbyte : Z
}.

(** types/message.h 152-160 *)
Record msgclass := { k_rx : list Z; k_tx : list Z; k_both : list Z }.

(** types/message.h 162-176 *)
Record dbclist := {
  d_msgs : list message;
  d_maxdlc : Z;
  d_verhi : Z;
  d_verlow : Z
}.

(** the signal RollSig / CsmSig points to *)
Definition roll_sig (m : message) : option signal :=
  match g_roll m with Some i => nth_error (g_sigs m) i | None => None end.
Definition csm_sig (m : message) : option signal :=
  match g_csm m with Some i => nth_error (g_sigs m) i | None => None end.
