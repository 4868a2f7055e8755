(** What the theorems about value tables in use talk about: an entry of the table of a signal, and the comparison of the signal's
    member with the macro of the entry. *)

From Coq Require Import ZArith NArith List String Ascii Bool.
From Verif Require Import Base CSyntax CSem Types Formatter SigSpec ScanSpec DeclSpec.
Import ListNotations.
Open Scope string_scope.

(** the entries [es] of the file have a table for the signal, the last one has the number [w] with the description [desc] *)
Definition table_entry (es : list entry) (md : msgdecl) (d : sigdecl) (w : Z) (desc : string) : Prop :=
  exists a v b, es = (a ++ EVals (md_id md) (sd_name d) v :: b)%list /\ In (w, desc) v /\
    forall k u, In (EVals k (sd_name d) u) b -> plain_id k <> plain_id (md_id md).
(** the name of its macro *)
Definition entry_macro_name (md : msgdecl) (d : sigdecl) (desc : string) : string := sd_name d ++ "_" ++ md_name md ++ "_" ++ make_c_name desc.

(** _m->Signal == Signal_Message_Description *)
Definition comparison (md : msgdecl) (d : sigdecl) (desc : string) : expr :=
  EBin OEq (EFld true (EId "_m") (sd_name d)) (EId (entry_macro_name md d desc)).

(** numbers that int holds; those of 32 bits for unsigned signals of up to 32 bits, but not 2^31 *)
Definition comparable (d : sigdecl) (w : Z) : Prop :=
  (0 <= w < 2 ^ 31 \/ sd_signed d = true /\ - 2 ^ 31 <= w < 0 \/ sd_signed d = false /\ (sd_len d <= 32)%N /\ 2 ^ 31 < w < 2 ^ 32)%Z.

(** _m->Signal = Signal_Message_Description *)
Definition selection (md : msgdecl) (d : sigdecl) (desc : string) : expr :=
  EBin OAsg (EFld true (EId "_m") (sd_name d)) (EId (entry_macro_name md d desc)).

(** _m->Message.Signal == Signal_Message_Description, in the struct of messages that Receive fills *)
Definition slot_comparison (md : msgdecl) (d : sigdecl) (desc : string) : expr :=
  EBin OEq (EFld false (EFld true (EId "_m") (md_name md)) (sd_name d)) (EId (entry_macro_name md d desc)).
