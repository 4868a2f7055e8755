(** Declared signals and messages, and the DBC text that declares them. *)

From Coq Require Import Permutation ZArith NArith List String Ascii Bool Floats.SpecFloat.
From Verif Require Import Base Dbl CSyntax Types ScanSpec.
Import ListNotations.
Open Scope string_scope.

(** a number as it is written: an integer, or digits with a fraction and perhaps an exponent *)
Inductive numeral :=
| NInt (z : Z)
| NDec (neg : bool) (whole frac : string) (ex : option Z).

Definition num_text (n : numeral) : string :=
  match n with
  | NInt z => decZ z
  | NDec neg a b ex =>
      (if neg then "-" else "") ++ a ++ "." ++ b ++ match ex with Some e => "E" ++ decZ e | None => "" end
  end.
Definition digits_value (s : string) : N := match num_dec 0 s with Some n => n | None => 0%N end.
(** the double next to it *)
Definition num_value (n : numeral) : dbl :=
  match n with
  | NInt z => dbl_of_Z z
  | NDec neg a b ex =>
      dbl_of_decimal neg (digits_value (a ++ b)) (match ex with Some e => e | None => 0 end - Z.of_nat (String.length b))
  end.
Definition digits (s : string) : Prop := s <> "" /\ all_chars is_digit s = true.
Definition numeral_ok (n : numeral) : Prop :=
  match n with
  | NInt z => (- 2 ^ 53 < z < 2 ^ 53)%Z
  | NDec _ a b _ => digits a /\ digits b
  end.
Definition fractional (n : numeral) : bool := match n with NInt _ => false | NDec _ _ _ _ => true end.

(** multiplexing: none, the selecting signal, or a signal selected by a value *)
Inductive mux_mark := MarkNone | MarkMaster | MarkValue (n : N).
Definition mark_text (m : mux_mark) : string :=
  match m with MarkNone => "" | MarkMaster => " M" | MarkValue n => " m" ++ dec n end.
Definition mark_kind (m : mux_mark) : mux :=
  match m with MarkNone => MxNone | MarkMaster => MxMaster | MarkValue _ => MxValue end.

Record sigdecl := {
  sd_name : string; sd_mark : mux_mark; sd_start : N; sd_len : N; sd_order : layout; sd_signed : bool;
  sd_factor : numeral; sd_offset : numeral; sd_low : string; sd_high : string; sd_unit : string; sd_recs : list string
}.
Definition sig_line (d : sigdecl) : string :=
  sg_line (sd_name d) (mark_text (sd_mark d)) (sd_start d) (sd_len d) (sd_order d) (sd_signed d)
    (num_text (sd_factor d)) (num_text (sd_offset d)) (sd_low d) (sd_high d) (sd_unit d) (sd_recs d).

Definition num_char (c : ascii) : bool :=
  is_alnum c || Ascii.eqb c "." || Ascii.eqb c "+" || Ascii.eqb c "-".
Definition bound_text (s : string) : Prop := s <> "" /\ all_chars num_char s = true.
Definition unit_char (c : ascii) : bool := negb (Ascii.eqb c DQ) && negb (Ascii.eqb c ":") && negb (Ascii.eqb c NL).

Record decl_ok (d : sigdecl) : Prop := {
  do_name : node_name (sd_name d);
  do_start : (sd_start d < 2 ^ 32)%N;
  do_len : (sd_len d < 2 ^ 8)%N;
  do_factor : numeral_ok (sd_factor d);
  do_offset : numeral_ok (sd_offset d);
  do_low : bound_text (sd_low d);
  do_high : bound_text (sd_high d);
  do_unit : all_chars unit_char (sd_unit d) = true;
  do_some : sd_recs d <> [];
  do_recs : forall x, In x (sd_recs d) -> node_name x
}.

(** needs no conversion: factor 1 and offset 0, both written as integers *)
Definition unscaled (d : sigdecl) : Prop := sd_factor d = NInt 1 /\ sd_offset d = NInt 0.

(** the signal that was read is the declared one *)
Record read_as (d : sigdecl) (s : signal) : Prop := {
  ra_start : s_start s = Z.of_N (sd_start d);
  ra_len : s_len s = Z.of_N (sd_len d);
  ra_order : s_order s = sd_order d;
  ra_signed : s_signed s = sd_signed d;
  ra_factor : s_factor s = num_value (sd_factor d);
  ra_offset : s_offset s = num_value (sd_offset d);
  ra_double : s_double s = fractional (sd_factor d) || fractional (sd_offset d);
  ra_unit : s_unit s = sd_unit d;
  ra_recs : s_recs s = sd_recs d;
  ra_mux : s_mux s = mark_kind (sd_mark d);
  ra_plain : unscaled d -> s_simple s = true /\ s_name s = sd_name d /\ s_namefloat s = "";
  ra_scaled : ~ unscaled d -> s_simple s = false /\ s_name s = sd_name d ++ "_ro" /\ s_namefloat s = sd_name d ++ "_phys"
}.

(** below 1e-9 in magnitude, but not zero *)
Definition tiny (n : numeral) : bool :=
  dltb (dabs (num_value n)) (dbl_of_decimal false 1 (-9)) && negb (deqb (num_value n) (S754_zero false)).

(** ** Files: messages with their signals, and other lines anywhere after a message or in front *)

Record msgdecl := { md_id : N; md_name : string; md_dlc : N; md_tx : string; md_sigs : list sigdecl }.
Definition msg_lines (m : msgdecl) : list string :=
  bo_line (md_id m) (md_name m) (md_dlc m) (md_tx m) :: map sig_line (md_sigs m).

Inductive block := BMsg (m : msgdecl) | BLine (l : string).
Definition block_lines (b : block) : list string := match b with BMsg m => msg_lines m | BLine l => [l] end.
Definition block_msgs (b : block) : list msgdecl := match b with BMsg m => [m] | BLine _ => [] end.
Definition file_text (bs : list block) : string := sconcat (map (fun l => l ++ nl) (flat_map block_lines bs)).
Definition file_msgs (bs : list block) : list msgdecl := flat_map block_msgs bs.

Fixpoint mentions (p s : string) : bool :=
  String.prefix p s || match s with EmptyString => false | String _ r => mentions p r end.
Definition lacks (c : ascii) (s : string) : bool := all_chars (fun x => negb (Ascii.eqb x c)) s.
(** blanks, tabs and other white space *)
Definition white (c : ascii) : bool := Ascii.eqb c " " || ((9 <=? N_of_ascii c) && (N_of_ascii c <=? 13))%N.
(** a colon between blanks *)
Fixpoint spaced_colon (s : string) : bool :=
  match s with
  | EmptyString => false
  | String a r => match r with String b (String c _) => white a && Ascii.eqb b ":" && white c | _ => false end || spaced_colon r
  end.
(** neither a message line nor anything that could be taken for a signal *)
Definition other_line (l : string) : Prop :=
  lacks NL l = true /\ String.prefix "BO_ " l = false /\ (mentions "SG_" l = false \/ spaced_colon l = false).

(** numbers whose factor and offset are not thrown away *)
Definition clear_decl (d : sigdecl) : Prop := decl_ok d /\ tiny (sd_factor d) = false /\ tiny (sd_offset d) = false.
Record mdecl_ok (m : msgdecl) : Prop := {
  mo_id : (md_id m < 2 ^ 32)%N;
  mo_head : valid_header (md_id m) (md_dlc m);
  mo_name : node_name (md_name m);
  mo_tx : node_name (md_tx m);
  mo_sigs : forall s, In s (md_sigs m) -> clear_decl s
}.
Definition block_ok (b : block) : Prop := match b with BMsg m => mdecl_ok m | BLine l => other_line l end.

(** the message that was read is the declared one; its signals may be in another order *)
Record read_message (d : msgdecl) (m : message) : Prop := {
  rm_name : g_name m = md_name d;
  rm_id : g_id m = Z.of_N (plain_id (md_id d));
  rm_ext : g_ext m = if N.testbit (md_id d) 31 then 1%Z else 0%Z;
  rm_dlc : g_dlc m = Z.of_N (md_dlc d);
  rm_sigs : exists ds, Permutation ds (md_sigs d) /\ Forall2 read_as ds (g_sigs m)
}.
