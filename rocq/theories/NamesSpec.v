(** The macros a header is meant to define, read off the data base. *)

From Coq Require Import ZArith NArith List String Ascii Bool.
From Verif Require Import Base Dbl Types.
Import ListNotations.
Open Scope string_scope.

(** constants of a message; the cycle time only when there is one *)
Definition id_names (m : message) : list string :=
  ([(g_name m ++ "_IDE")%string; (g_name m ++ "_DLC")%string; (g_name m ++ "_CANID")%string] ++
   (if (0 <? g_cycle m)%Z then [(g_name m ++ "_CYC")%string] else []))%list.

(** one macro per entry of a value table *)
Definition entry_names (m : message) : list string :=
  if g_notempty m
  then flat_map (fun sg => map (fun p => s_name sg ++ "_" ++ g_name m ++ "_" ++ fst p)%string (s_valdefs sg)) (g_sigs m)
  else [].

(** names of the signals of a message that need a conversion *)
Definition scaled (m : message) : list string :=
  if g_notempty m then map s_name (filter (fun sg => negb (s_simple sg)) (g_sigs m)) else [].

(** three macros per scaled signal name, whatever number of messages uses the name *)
Definition conv_names (D x : string) : list string :=
  [D ++ "_" ++ x ++ "_CovFactor"; D ++ "_" ++ x ++ "_toS"; D ++ "_" ++ x ++ "_fromS"].

(** [D]: the driver's name in upper case *)
Definition header_names (D : string) (d : dbclist) : list string :=
  ([("VER_" ++ D ++ "_MAJ")%string; ("VER_" ++ D ++ "_MIN")%string; (D ++ "_MAX_DLC_VALUE")%string;
    (D ++ "_VALIDATE_DLC")%string; (D ++ "_INITIAL_BYTE_VALUE")%string] ++
   flat_map (fun m => id_names m ++ entry_names m) (d_msgs d) ++
   flat_map (conv_names D) (nodup string_dec (flat_map scaled (d_msgs d))))%list.

(** all but the entries of value tables; these are defined without looking whether the name is taken *)
Definition fixed_names (D : string) (d : dbclist) : list string :=
  ([("VER_" ++ D ++ "_MAJ")%string; ("VER_" ++ D ++ "_MIN")%string; (D ++ "_MAX_DLC_VALUE")%string;
    (D ++ "_VALIDATE_DLC")%string; (D ++ "_INITIAL_BYTE_VALUE")%string] ++
   flat_map id_names (d_msgs d) ++ flat_map (conv_names D) (nodup string_dec (flat_map scaled (d_msgs d))))%list.

(** value tables of a message as (macro name, value), in the order of the header *)
Definition entries (m : message) : list (string * Z) :=
  if g_notempty m
  then flat_map (fun sg => map (fun p => ((s_name sg ++ "_" ++ g_name m ++ "_" ++ fst p)%string, snd p)) (s_valdefs sg)) (g_sigs m)
  else [].
Definition first_value (x : string) (ms : list message) : option Z :=
  option_map snd (find (fun p => String.eqb (fst p) x) (flat_map entries ms)).
