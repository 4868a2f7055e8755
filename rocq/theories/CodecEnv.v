(** Calls of emitted functions in a program that contains one emitted driver. *)

From Coq Require Import ZArith NArith List String Ascii Bool.
From Verif Require Import Base Dbl CSyntax CSem CRun Types Formatter Settings MainGen App CodecSpec MsgSpec DriverSpec HeaderSpec.
Import ListNotations.
Open Scope Z_scope.

(** The emitted driver and its surroundings: macros [e_conf] set before the header (compiler options,
    dbccodeconf.h, the driver's configuration header), further functions of the program. *)
Record env := {
  e_fuel : nat;                               (* additional nesting of macros allowed *)
  e_drv : string;                             (* driver name *)
  e_g : gendesc;                              (* names derived from it *)
  e_db : dbclist;                             (* the data base *)
  e_h : string;                               (* emitted header *)
  e_src : string;                             (* emitted source *)
  e_conf : list (string * macro);
  e_user : string -> option (list arg -> res cval);
  e_calls : string -> option (list expr -> mem -> res (mem * cval))
}.

Definition e_unit (e : env) : cunit := compile (after_header (e_conf e) (e_h e)) (e_src e).
Definition e_macros (e : env) : list (string * macro) := u_macros (e_unit e).
Definition e_ctx (e : env) : ctx := unit_ctx (S (e_fuel e)) (e_unit e) (e_user e) (e_calls e).
Definition e_evals (e : env) : nat := S (S (e_fuel e)).

(** running one function of the driver; the result is the memory afterwards and the returned value *)
Definition call (e : env) (f : string) (m : mem) : res (mem * option cval) :=
  run_fun (e_evals e) (e_ctx e) (u_funs (e_unit e)) f m.
Definition unpack (e : env) (msg : message) : mem -> res (mem * option cval) := call e (unpack_name (e_drv e) msg).
Definition pack (e : env) (msg : message) : mem -> res (mem * option cval) := call e (pack_name (e_drv e) msg).

(** header and source come from one run of the generator; no macro of the header is defined twice *)
Record program (e : env) : Prop := {
  pr_driver : driver (e_drv e) (e_g e) (e_db e) (e_h e) (e_src e);
  pr_header : header_ok (e_db e);
  pr_locals : locals_free (e_macros e);
  pr_global : forall x, In x ["_VALIDATE_DLC"; "_MAX_DLC_VALUE"; "_INITIAL_BYTE_VALUE"]%string ->
                        once (n_DRV (e_g e) ++ x) (e_h e);
  pr_consts : forall msg x, In msg (d_msgs (e_db e)) -> In x ["_DLC"; "_CANID"; "_IDE"]%string ->
                        once (g_name msg ++ x) (e_h e)
}.

(** optional parts of the code *)
Definition rolls_on (e : env) : bool := defined (n_useroll (e_g e)) (e_macros e).
Definition floats_on (e : env) : bool := defined (n_usesigfloat (e_g e)) (e_macros e).
Definition monitors_on (e : env) : bool := defined (n_usemon (e_g e)) (e_macros e).
Definition struct_on (e : env) : bool := defined (n_usestruct (e_g e)) (e_macros e).

(** ** Unpack *)

(** A call of Unpack: the payload [d] is in the array _d, dlc_ is [dl], _m points to a struct of the
    message (with bit-fields when [bits]).  [pf] are the conversions to physical values; with monitors,
    the application provides the tick, a hash function and a hook. *)
Record receives (e : env) (msg : message) (bits : bool) (d : list Z) (dl tick : Z) (hash : list Z -> Z)
    (hook : mem -> mem) (pf : signal -> Z -> cval) (m : mem) : Prop := {
  rc_prog : program e;
  rc_msg : In msg (d_msgs (e_db e)) /\ g_notempty msg = true;
  rc_data : payload m "_d" msg d;
  rc_dlc : m_scal m "dlc_" = Some (LInt U8, VI U8 dl) /\ 0 <= dl < 256;
  rc_struct : has_struct (floats_on e) (rolls_on e) bits msg m;
  rc_phys : floats_on e = true -> forall sg, In sg (g_sigs msg) -> s_simple sg = false ->
              from_raw (e_evals e) (e_ctx e) (e_g e) bits pf sg;
  rc_mon : monitors_on e = true -> monitors (e_evals e) (e_ctx e) (e_g e) msg m tick hash hook
}.

(** ** Pack *)

(** the initial byte value and the maximal length: the configuration's, else 0 and the value the
    generator found *)
Definition setting_is (e : env) (x : string) (dflt v : Z) : Prop :=
  match lookup x (e_conf e) with
  | None => v = dflt
  | Some _ => const_macro (e_conf e) x v
  end.
Definition initial_is (e : env) (v : Z) : Prop := setting_is e (n_DRV (e_g e) ++ "_INITIAL_BYTE_VALUE") 0 v.
Definition maxdlc_is (e : env) (v : Z) : Prop :=
  setting_is e (n_DRV (e_g e) ++ "_MAX_DLC_VALUE") (d_maxdlc (e_db e)) v.

(** A call of Pack: [d] is the old content of the buffer, the struct is reached through _m; [tf] are the
    raw values the conversions from physical values give; with checksums, the application provides the
    hash function. *)
Record sends (e : env) (msg : message) (bits : bool) (ini mx : Z) (d : list Z) (tf : signal -> Z)
    (hash : list Z -> Z) (m : mem) : Prop := {
  sn_prog : program e;
  sn_msg : In msg (d_msgs (e_db e)) /\ g_notempty msg = true;
  sn_csm : csm_plain (e_macros e) (e_g e) msg;
  sn_data : payload m (buffer (struct_on e)) msg d;
  sn_reports : forall p t z, In (p, t, z) (reports msg (struct_on e)) -> exists v, m_scal m p = Some (LInt t, v);
  sn_ini : initial_is e ini /\ 0 <= ini < 256;
  sn_max : maxdlc_is e mx /\ 0 <= mx < 256;
  sn_struct : has_struct (floats_on e) (rolls_on e) bits msg m;
  sn_counter : forall rs, counter_on (e_macros e) (e_g e) msg = Some rs -> carries (s_signed rs) (s_len rs) (value m rs);
  sn_scaled : forall sg, In sg (g_sigs msg) -> converted (e_macros e) (e_g e) msg sg = true ->
                to_raw (e_evals e) (e_ctx e) (e_g e) bits m tf sg;
  sn_hash : checksum_on (e_macros e) (e_g e) msg <> None ->
    hash_ok (e_evals e) (e_ctx e) msg (buffer_expr (struct_on e)) (buffer (struct_on e)) hash /\
    m_scal m (g_csmmethod msg) = None /\ g_csmmethod msg <> "i"%string
}.

(** the data bytes of the frame, after a call of Pack *)
Definition frame (e : env) (m : mem) (d : list Z) : Prop := m_arr m (buffer (struct_on e)) = Some d.

(** signals that Pack takes over from the struct as they are: not incremented, not computed *)
Definition plain (e : env) (msg : message) (sg : signal) : Prop :=
  counter_on (e_macros e) (e_g e) msg <> Some sg /\ checksum_on (e_macros e) (e_g e) msg <> Some sg /\
  converted (e_macros e) (e_g e) msg sg = false.

(** the hash looks at the first [n] bytes only *)
Definition hash_of_first (n : nat) (hash : list Z -> Z) : Prop := forall x y, firstn n x = firstn n y -> hash x = hash y.

(** two programs in which the optional parts of a message's Pack are switched on alike *)
Definition same_options (e1 e2 : env) (msg : message) : Prop :=
  counter_on (e_macros e1) (e_g e1) msg = counter_on (e_macros e2) (e_g e2) msg /\
  checksum_on (e_macros e1) (e_g e1) msg = checksum_on (e_macros e2) (e_g e2) msg /\
  forall sg, In sg (g_sigs msg) -> converted (e_macros e1) (e_g e1) msg sg = converted (e_macros e2) (e_g e2) msg sg.
