(** Model of /repo/src/helpers/formatter.cpp *)

From Coq Require Import ZArith NArith List String Ascii Bool.
From Coq Require Import Floats.SpecFloat.
From Verif Require Import Base Dbl CSyntax.
Import ListNotations.
Open Scope string_scope.

(** StrPrint, formatter.cpp 36-46: the result of the formatting, cut to the 4096 byte work
    buffer.  The argument is the formatted text. *)
Definition str_print (s : string) : string := cut 4096 s.

(** IndentedString, formatter.cpp 23-34 (fill character ' ') *)
Definition indented_string (n : nat) (source : string) : string :=
  if (n <=? String.length source)%nat then source
  else source ++ repeat_char (n - String.length source) " ".

(** PrintType and __typeprint, formatter.cpp 11-21 and 47-55 *)
Definition print_type (t : cty) : string :=
  match t with
  | I8 => "int8_t" | I16 => "int16_t" | I32 => "int32_t" | I64 => "int64_t"
  | U8 => "uint8_t" | U16 => "uint16_t" | U32 => "uint32_t" | U64 => "uint64_t"
  end.

(** std::toupper / std::tolower on a byte; bytes above 127 are unchanged in the C and the
    UTF-8 locales *)
Definition to_upper (c : ascii) : ascii := if is_lower c then ch (code c - 32) else c.
Definition to_lower (c : ascii) : ascii := if is_upper c then ch (code c + 32) else c.
(** str_toupper, str_tolower: formatter.cpp 57-75 *)
Definition str_toupper (s : string) : string := map_string to_upper s.
Definition str_tolower (s : string) : string := map_string to_lower s.

(** str_trim, formatter.cpp 77-105: an empty line becomes a line feed; otherwise the longest
    tail of characters that are not greater than ' ' (as signed char) is removed. *)
Fixpoint rtrim_chars (s : string) : string :=
  match s with
  | EmptyString => ""
  | String c r =>
      match rtrim_chars r with
      | EmptyString => if (32 <? schar c)%Z then String c "" else ""
      | r' => String c r'
      end
  end.
Definition str_trim (s : string) : string :=
  match s with
  | EmptyString => nl
  | _ => rtrim_chars s
  end.

(** make_c_name, formatter.cpp 107-148 *)
Definition is_first_valid (c : ascii) : bool :=
  in_range "a" "z" c || in_range "A" "Z" c || Ascii.eqb c "_".
Definition is_nonfirst_valid (c : ascii) : bool :=
  is_first_valid c || in_range "0" "9" c.
Fixpoint make_c_name_from (ret s : string) : string :=
  match s with
  | EmptyString => ret
  | String c r =>
      if ((String.length ret =? 0)%nat && is_first_valid c)
         || ((0 <? String.length ret)%nat && is_nonfirst_valid c)
      then make_c_name_from (ret ++ String c "") r
      else if Ascii.eqb c " " then make_c_name_from (ret ++ "_") r
      else make_c_name_from ret r
  end.
Definition make_c_name (s : string) : string := make_c_name_from "" s.

(** std::fixed << std::setprecision(10) << value in the classic locale: exact decimal value
    rounded to ten fraction digits, ties to even. *)
Definition round_half_even (n d : Z) : Z :=
  (let q := n / d in
   let r := n mod d in
   if 2 * r <? d then q else if d <? 2 * r then q + 1
   else if Z.even q then q else q + 1)%Z.

Definition fixed10_scaled (m : positive) (e : Z) : N :=
  Z.to_N
    (match e with
     | Zneg q => round_half_even (Zpos m * 10 ^ 10) (2 ^ Zpos q)
     | _ => Zpos m * 2 ^ e * 10 ^ 10
     end)%Z.

Definition fixed10 (d : dbl) : string :=
  let digits (s : bool) (n : N) :=
    (if s then "-" else "") ++ dec (n / 10 ^ 10) ++ "."
      ++ pad_left 10 "0" (dec (n mod 10 ^ 10)) in
  match d with
  | S754_nan => "nan"
  | S754_infinity s => if s then "-inf" else "inf"
  | S754_zero s => digits s 0%N
  | S754_finite s m e => digits s (fixed10_scaled m e)
  end.

(** prt_double, formatter.cpp 150-202, with usedot = true *)
Fixpoint addtail_scan (j : nat) (addtail : nat) (n : nat) (s : string) : nat :=
  match n, s with
  | S n', String c r =>
      addtail_scan (S j) (if in_range "1" "9" c then S j else addtail) n' r
  | _, _ => addtail
  end.

Definition prt_double (value : dbl) (precision : nat) : string :=
  let s := fixed10 value in
  match index 0 "." s with
  | None => s ++ ".0"
  | Some dotpos =>
      let tail := substring (S dotpos) (String.length s) s in
      let tailsize := Nat.min (String.length s - (dotpos + 1)) precision in
      let addtail := addtail_scan 0 0 tailsize tail in
      if (addtail =? 0)%nat then substring 0 dotpos s ++ ".0"
      else substring 0 (dotpos + addtail + 1) s
  end.
