(** Conditions on messages and on the program around the generated code, used in the statements
    about emitted functions.  Only descriptors and the C semantics are mentioned, not the
    generator. *)

From Coq Require Import ZArith NArith List String Ascii Bool.
From Verif Require Import Base Dbl CSyntax CSem Types Formatter CodecSpec.
Import ListNotations.
Open Scope Z_scope.

(** ** Messages *)

(** the raw type of a signal has its signedness and is wide enough *)
Definition raw_type_ok (sg : signal) : Prop :=
  is_signed (s_typero sg) = s_signed sg /\ s_len sg <= width (s_typero sg).

(** a signal inside a frame of [dlc] bytes *)
Record sig_ok (dlc : Z) (sg : signal) : Prop := {
  ok_name : is_ident (s_name sg) = true;
  ok_name_len : (String.length (s_name sg) <= 1000)%nat;
  ok_len : 1 <= s_len sg <= 64;
  ok_start : 0 <= s_start sg;
  ok_in : in_frame (s_order sg) (s_start sg) (s_len sg) dlc;
  ok_type : raw_type_ok sg;
  ok_phys : s_simple sg = false -> is_ident (s_namefloat sg) = true /\
                                   (String.length (s_namefloat sg) <= 1010)%nat
}.

Definition phys_names (m : message) : list string :=
  map s_namefloat (filter (fun sg => negb (s_simple sg)) (g_sigs m)).

(** all members of the struct that belong to signals have different names *)
Definition member_names (m : message) : list string := (map s_name (g_sigs m) ++ phys_names m)%list.

Record msg_ok (m : message) : Prop := {
  mo_dlc : 1 <= g_dlc m <= 64;
  mo_id : 0 <= g_id m < 2 ^ 29;
  mo_ext : 0 <= g_ext m <= 1;
  mo_name : is_ident (g_name m) = true;
  mo_name_len : (String.length (g_name m) <= 1000)%nat;
  mo_sigs : forall sg, In sg (g_sigs m) -> sig_ok (g_dlc m) sg;
  mo_names : NoDup (member_names m);
  mo_roll : forall sg, roll_sig m = Some sg ->
              s_len sg < 31 /\ ~ In (s_name sg ++ "_expt")%string (member_names m);
  mo_csm : forall sg, csm_sig m = Some sg ->
              is_ident (g_csmmethod m) = true /\ is_typename (g_csmmethod m) = false /\
              (String.length (g_csmmethod m) <= 1000)%nat /\ 0 <= g_csmop m < 2 ^ 31
}.

(** ** Struct members *)

(** object type of a member: with bit-fields in use, signals below 8 bits are bit-fields *)
Definition field_ty (bits : bool) (sg : signal) : lty :=
  if bits && (s_len sg <? 8) then LBits (s_typero sg) (s_len sg) else LInt (s_typero sg).
Definition phys_ty (sg : signal) : lty := if s_double sg then LDbl else LInt (s_typephys sg).

(** access path of a member of the struct that the functions get as [_m] *)
Definition member (x : string) : string := ("_m->" ++ x)%string.

(** the integer found in an object *)
Definition int_at (m : mem) (p : string) : option Z :=
  match m_scal m p with Some (_, VI _ z) => Some z | _ => None end.

(** there is an object of type [t], holding a value of that type *)
Definition has_type (m : mem) (p : string) (t : lty) : Prop :=
  exists v, m_scal m p = Some (t, v) /\ to_obj t v = Ok v.

(** [m] contains a struct of the message; members for physical values exist when [floats], the one for
    the expected counter value when [rolls], short fields are bit-fields when [bits] *)
Record has_struct (floats rolls bits : bool) (g : message) (m : mem) : Prop := {
  hs_sigs : forall sg, In sg (g_sigs g) -> has_type m (member (s_name sg)) (field_ty bits sg);
  hs_phys : floats = true -> forall sg, In sg (g_sigs g) -> s_simple sg = false ->
              has_type m (member (s_namefloat sg)) (phys_ty sg);
  hs_expt : rolls = true -> forall sg, roll_sig g = Some sg ->
              has_type m (member (s_name sg ++ "_expt")) (field_ty bits sg)
}.

(** the monitor of canmonitorutil.h *)
Definition mon_path (f : string) : string := ("_m->mon1." ++ f)%string.
Record has_monitor (m : mem) : Prop := {
  hm_cnt : has_type m (mon_path "frame_cnt") (LInt U32);
  hm_cycle : has_type m (mon_path "last_cycle") (LInt U32);
  hm_roll : has_type m (mon_path "roll_error") (LBits U32 1);
  hm_csm : has_type m (mon_path "csm_error") (LBits U32 1);
  hm_dlc : has_type m (mon_path "dlc_error") (LBits U32 1)
}.

(** ** The program around the generated functions *)

(** an object-like macro whose text is one unsigned constant *)
Definition const_macro (M : list (string * macro)) (x : string) (v : Z) : Prop :=
  exists b, lookup x M = Some {| m_params := None; m_body := b |} /\
            parse_expr_toks b = Some (EInt U32 v).

(** identification of the message as the header defines it *)
Record id_consts (M : list (string * macro)) (g : message) : Prop := {
  ic_dlc : const_macro M (g_name g ++ "_DLC") (g_dlc g);
  ic_id : const_macro M (g_name g ++ "_CANID") (g_id g);
  ic_ide : const_macro M (g_name g ++ "_IDE") (g_ext g)
}.

(** system tick: a macro or function the application supplies *)
Definition tick_ok (n : nat) (c : ctx) (tick : Z) : Prop :=
  c_calls c "GetSystemTick" = None /\ 0 <= tick < 2 ^ 32 /\
  forall m, exists t, eval n c m [] (ECall "GetSystemTick" []) = Ok (VI t tick).

(** frame hash: any function of the payload; the payload is the only array and the name of the
    checksum method is not a variable *)
Definition only_array (m : mem) (p : string) (d : list Z) : Prop :=
  m_arr m p = Some d /\ forall q, q <> p -> m_arr m q = None.
Definition hash_ok (n : nat) (c : ctx) (g : message) (arr : expr) (p : string)
  (hash : list Z -> Z) : Prop :=
  c_calls c "GetFrameHash" = None /\
  forall m d, only_array m p d -> m_scal m (g_csmmethod g) = None ->
    exists t, eval n c m [] (ECall "GetFrameHash" [arr; EId (g_name g ++ "_DLC");
                 EId (g_name g ++ "_CANID"); EId (g_csmmethod g); EInt I32 (g_csmop g)])
              = Ok (VI t (hash d)).

(** value of an object after storing [z] *)
Definition obj (l : lty) (z : Z) : cval :=
  match to_obj l (VI I32 z) with Ok w => w | _ => VI I32 0 end.
Definition flag (b : bool) : Z := if b then 1 else 0.
