(** What the theorems about Receive in a program made from a DBC file talk about. *)

From Coq Require Import ZArith NArith List String Ascii Bool.
From Verif Require Import Base Dbl CSyntax CSem CRun Types Formatter Settings MainGen UtilGen App CodecSpec MsgSpec PPProof DriverSpec HeaderSpec CodecEnv StructSpec
  UtilSpec SigSpec DeclSpec.
Import ListNotations.
Open Scope string_scope.

(** the node is among the declared receivers of a signal of the message; the utilities of the whole driver ([None]) receive
    every message that has signals *)
Definition declared_for (who : option string) (m : msgdecl) : Prop :=
  md_sigs m <> [] /\ match who with None => True | Some n => exists d, In d (md_sigs m) /\ In n (sd_recs d) end.

(** [h] and [c] are the utility files for the data base of the program [e]; the name of their functions is an identifier *)
Record companion (e : env) (who : option string) (h c : string) : Prop := {
  cp_run : exists srt out date dbc nc ni nf ph pc,
    let s := util_settings (e_drv e) who
      (configure (e_drv e) out (common_info date) (driver_info dbc) (d_verhi (e_db e)) (d_verlow (e_db e)) nc ni nf) in
    orders srt /\ match date with Some t => no_nl t = true | None => True end /\ no_nl dbc = true /\
    (0 <= d_verhi (e_db e) < 2 ^ 32)%Z /\ (0 <= d_verlow (e_db e) < 2 ^ 32)%Z /\
    generate_util srt (e_db e) s (util_groups (e_db e) who) (e_drv e) = [(ph, h); (pc, c)];
  cp_name : is_ident (util_name (e_drv e) who) = true /\ (String.length (util_name (e_drv e) who) <= 2000)%nat
}.
(** the configuration defines no macros with the names of Receive's parameter and variable *)
Definition receive_free (e : env) : Prop := lookup "_id" (e_conf e) = None /\ lookup "recid" (e_conf e) = None.

(** a call of Receive: the ID, the payload, the length and the member of the message in the receive struct *)
Definition id_is (mm : mem) (i : Z) : Prop := m_scal mm "_id" = Some (LInt U32, VI U32 i) /\ (0 <= i < 2 ^ 32)%Z.
(** the number in the member of a signal inside the member of its message *)
Definition slot_is (mm : mem) (m : msgdecl) (d : sigdecl) (z : Z) : Prop := int_at mm (sub_path (md_name m) (field_name d)) = Some z.
(** nothing else changes: only objects inside the member of the message and Receive's own variable *)
Definition rest_kept (m : msgdecl) (mm mm' : mem) : Prop :=
  (forall p, p <> "recid" -> strip ("_m->" ++ md_name m ++ ".") p = None -> m_scal mm' p = m_scal mm p) /\ m_arr mm' = m_arr mm.
(** the member of a message in the receive struct: its name and the type of the message's struct *)
Definition slot_of (m : msgdecl) : mdecl := {| md_type := md_name m ++ "_t"; StructSpec.md_name := md_name m; md_bits := None |}.
