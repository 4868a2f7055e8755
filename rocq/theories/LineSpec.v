(** What the theorems about complete source lines talk about: the parts of a signal and the C terms for them. *)

From Coq Require Import ZArith List String Ascii Bool.
From Verif Require Import Base Types Formatter CodecSpec.
Import ListNotations.
Open Scope Z_scope.

(** one part of a signal: [p_n] bits from bit [p_lo] of byte [p_byte] up hold the bits of the value from [p_k] up *)
Record spart := { p_byte : Z; p_lo : Z; p_n : Z; p_k : Z }.

(** the part is all that the signal has in this byte *)
Record share (sg : signal) (p : spart) : Prop := {
  sh_byte : 0 <= p_lo p /\ 0 < p_n p /\ p_lo p + p_n p <= 8;
  sh_value : 0 <= p_k p /\ p_k p + p_n p <= s_len sg;
  sh_bits : forall j, 0 <= j < p_n p -> sig_pos (s_order sg) (s_start sg) (s_len sg) (p_k p + j) = 8 * p_byte p + p_lo p + j;
  sh_all : forall q, 0 <= q < s_len sg -> sig_pos (s_order sg) (s_start sg) (s_len sg) q / 8 = p_byte p -> p_k p <= q < p_k p + p_n p
}.

Definition mask_text (n : Z) : string :=
  nth (Z.to_nat n) [""; "0x01U"; "0x03U"; "0x07U"; "0x0FU"; "0x1FU"; "0x3FU"; "0x7FU"; "0xFFU"]%string ""%string.

(** the part read from the payload, at its place in the value *)
Definition load_term (p : spart) : string :=
  let byte := ("_d[" ++ decZ (p_byte p) ++ "]")%string in
  (if (p_k p =? 0)%Z then
     if (p_lo p =? 0)%Z then "(" ++ byte ++ " & (" ++ mask_text (p_n p) ++ "))"
     else "((" ++ byte ++ " >> " ++ decZ (p_lo p) ++ "U) & (" ++ mask_text (p_n p) ++ "))"
   else "(" ++ (if (31 <? p_k p)%Z then "(uint64_t)" else "") ++ "(" ++ byte ++ " & (" ++ mask_text (p_n p) ++ ")) << " ++ decZ (p_k p) ++ "U)")%string.
(** the part taken from the value, at its place in the byte *)
Definition store_term (nm : string) (p : spart) : string :=
  (if (p_k p =? 0)%Z then
     if (p_lo p =? 0)%Z then "(_m->" ++ nm ++ " & (" ++ mask_text (p_n p) ++ "))"
     else "((_m->" ++ nm ++ " & (" ++ mask_text (p_n p) ++ ")) << " ++ decZ (p_lo p) ++ "U)"
   else "((_m->" ++ nm ++ " >> " ++ decZ (p_k p) ++ "U) & (" ++ mask_text (p_n p) ++ "))")%string.

(** the line that assigns the signal in Unpack *)
Definition assign_line (sg : signal) (ps : list spart) : string :=
  let terms := String.concat " | " (map load_term ps) in
  ("  _m->" ++ s_name sg ++ " = (" ++ print_type (s_typero sg) ++ ") " ++
   (if s_signed sg then "__ext_sig__(( " ++ terms ++ " ), " ++ decZ (s_len sg) ++ ");" else "( " ++ terms ++ " );"))%string.
(** the line that fills a byte in Pack; [dst] is the array *)
Definition fill_line (dst : string) (i : Z) (terms : list string) : string :=
  ("  " ++ dst ++ "[" ++ decZ i ++ "] |= (uint8_t) ( " ++ String.concat " | " terms ++ " );")%string.
