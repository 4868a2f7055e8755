(** What the theorems about the utility files (Receive and the structs of messages) talk about. *)

From Coq Require Import ZArith NArith List String Ascii Bool Permutation Sorted.
From Verif Require Import Base Dbl CSyntax CSem CRun Types Formatter Settings MainGen UtilGen App CodecSpec MsgSpec
  PPProof DriverSpec HeaderSpec CodecEnv StructSpec.
Import ListNotations.
Open Scope string_scope.

(** ** Files *)

(** std::sort *)
Definition orders (srt : sorter) : Prop :=
  forall A (key : A -> Z) l, Permutation (srt A key l) l /\ StronglySorted (fun a b => (key a <= key b)%Z) (srt A key l).

(** the utilities of the whole driver ([None]) or of one node *)
Definition util_name (drv : string) (who : option string) : string :=
  match who with None => str_tolower drv | Some n => str_tolower (n ++ "_" ++ drv) end.
Definition util_settings (drv : string) (who : option string) (s : settings) : settings :=
  match who with None => s | Some n => node_settings s n drv end.
Definition util_groups (d : dbclist) (who : option string) : msgclass :=
  match who with None => all_groups (d_msgs d) | Some n => node_groups (d_msgs d) n end.

(** [h] and [c] are the texts of the utility header and source that one run writes *)
Record utility (drv : string) (d : dbclist) (who : option string) (h c : string) : Prop := {
  ut_run : exists srt out date dbc nc ni nf ph pc,
    let s := util_settings drv who (configure drv out (common_info date) (driver_info dbc) (d_verhi d) (d_verlow d) nc ni nf) in
    orders srt /\ match date with Some t => no_nl t = true | None => True end /\ no_nl dbc = true /\
    (0 <= d_verhi d < 2 ^ 32)%Z /\ (0 <= d_verlow d < 2 ^ 32)%Z /\
    generate_util srt d s (util_groups d who) drv = [(ph, h); (pc, c)];
  ut_drv : is_ident drv = true /\ (String.length drv <= 900)%nat;
  ut_name : is_ident (util_name drv who) = true /\ (String.length (util_name drv who) <= 2000)%nat;
  ut_msgs : forall m, In m (d_msgs d) -> is_ident (g_name m) = true /\ (String.length (g_name m) <= 1000)%nat /\ (0 <= g_id m < 2 ^ 32)%Z
}.

(** messages received and sent; the utilities of the whole driver receive everything *)
Definition received (who : option string) (m : message) : Prop :=
  g_notempty m = true /\ match who with None => True | Some n => In n (g_recs m) end.
Definition sent (who : option string) (m : message) : Prop :=
  g_notempty m = true /\ match who with None => False | Some n => In n (g_trans m) end.

(** ** Calls *)

(** the argument list (&(_m->name), _d, dlc_) *)
Definition unpack_args (msg : message) : list expr :=
  [EUn UAddr (EFld true (EId "_m") (g_name msg)); EId "_d"; EId "dlc_"].

(** the unit of the utility source; [calls] are the functions with effects that it can call *)
Definition util_ctx (M : list (string * macro)) (calls : string -> option (list expr -> mem -> res (mem * cval))) : ctx :=
  {| c_macros := M; c_types := std_types; c_funs := fun _ => None; c_calls := calls |}.
Definition run_receive (n : nat) (M : list (string * macro)) (calls : string -> option (list expr -> mem -> res (mem * cval)))
    (drv : string) (who : option string) (c : string) (m : mem) : res (mem * option cval) :=
  let u := compile M c in
  run_fun n (util_ctx (u_macros u) calls) (u_funs u) (util_name drv who ++ "_Receive") m.

Definition zero_recid (m : mem) : mem := set_scal m "recid" (LInt U32, VI U32 0).

(** ** Calls of the driver's functions by reference *)

Fixpoint strip (p s : string) : option string :=
  match p, s with
  | EmptyString, _ => Some s
  | String a p', String b s' => if Ascii.eqb a b then strip p' s' else None
  | _, _ => None
  end.
Definition sub_path (x f : string) : string := "_m->" ++ x ++ "." ++ f.
(** the objects that Unpack sees when it is called with &(_m->x), _d and dlc_ *)
Definition inside (x : string) (m : mem) : mem :=
  {| m_scal := fun p => if String.eqb p "dlc_" then m_scal m "dlc_" else
                        match strip "_m->" p with Some f => m_scal m (sub_path x f) | None => None end;
     m_arr := fun p => if String.eqb p "_d" then m_arr m "_d" else None |}.
(** the caller's objects when it has returned with [m'] *)
Definition back (x : string) (m m' : mem) : mem :=
  {| m_scal := fun p => match strip ("_m->" ++ x ++ ".") p with Some f => m_scal m' ("_m->" ++ f) | None => m_scal m p end;
     m_arr := m_arr m |}.
Definition is_message (f : string) (e : env) (msg : message) : bool := String.eqb f (unpack_name (e_drv e) msg).
Definition same_args (msg : message) (args : list expr) : bool :=
  match args with
  | [EUn UAddr (EFld true (EId p) x); EId q; EId r] =>
      String.eqb p "_m" && String.eqb x (g_name msg) && String.eqb q "_d" && String.eqb r "dlc_"
  | _ => false
  end.
(** the Unpack functions of the driver *)
Definition unpack_calls (e : env) (f : string) : option (list expr -> mem -> res (mem * cval)) :=
  match find (is_message f e) (d_msgs (e_db e)) with
  | None => None
  | Some msg => Some (fun args m =>
      if same_args msg args then
        do r <- unpack e msg (inside (g_name msg) m);
        match snd r with
        | Some v => do w <- to_obj (LInt U32) v; Ok (back (g_name msg) m (fst r), w)
        | None => UB "no value returned"
        end
      else UB "arguments")
  end.
(** Receive, linked with the driver *)
Definition receive (e : env) (who : option string) (c : string) (m : mem) : res (mem * option cval) :=
  run_receive (e_evals e) (after_header (e_conf e) (e_h e)) (unpack_calls e) (e_drv e) who c m.

(** ** Structs of messages *)

(** the member of a message in the structs of messages *)
Definition slot (m : message) : mdecl := {| md_type := g_name m ++ "_t"; md_name := g_name m; md_bits := None |}.
