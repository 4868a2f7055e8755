(** Model of /repo/src/parser/dbclineparser.cpp.

    The std::regex objects used there are simple enough to be replaced by direct splitters; the
    comment of each splitter names the expression it stands for.  std::regex uses the classic
    locale: \s is space, \t \n \v \f \r, \w is [A-Za-z0-9_], \d is [0-9]. *)

From Coq Require Import ZArith NArith List String Ascii Bool.
From Coq Require Import Floats.SpecFloat.
From Verif Require Import Base Dbl CSyntax Types Formatter.
Import ListNotations.
Open Scope string_scope.

(** ** C library conversions *)

Definition is_space (c : ascii) : bool :=
  Ascii.eqb c " " || ((9 <=? code c) && (code c <=? 13))%N.

Fixpoint drop_while (p : ascii -> bool) (s : string) : string :=
  match s with
  | EmptyString => ""
  | String c r => if p c then drop_while p r else s
  end.

(** longest prefix of digits, as a number *)
Fixpoint take_digits (acc : N) (s : string) : N :=
  match s with
  | String c r => if is_digit c then take_digits (10 * acc + digit_val c) r else acc
  | EmptyString => acc
  end.

Definition sign_of (s : string) : bool * string :=
  match s with
  | String c r => if Ascii.eqb c "-" then (true, r) else if Ascii.eqb c "+" then (false, r)
                  else (false, s)
  | EmptyString => (false, s)
  end.

(** strtoll(s, NULL, 10): saturates *)
Definition strtoll (s : string) : Z :=
  let '(neg, r) := sign_of (drop_while is_space s) in
  let z := Z.of_N (take_digits 0 r) in
  let z := if neg then (- z)%Z else z in
  Z.max (- 2 ^ 63) (Z.min (2 ^ 63 - 1) z).

(** atoll; atoi is the conversion of strtol to int in glibc *)
Definition atoll (s : string) : Z := strtoll s.
Definition atoi (s : string) : Z := swrap 32 (strtoll s).

(** digits of a mantissa: value, number of digits, rest *)
Fixpoint mant_dec (acc : N) (n : nat) (s : string) : N * nat * string :=
  match s with
  | String c r =>
      if is_digit c then mant_dec (10 * acc + digit_val c) (S n) r else (acc, n, s)
  | EmptyString => (acc, n, s)
  end.
Fixpoint mant_hex (acc : N) (n : nat) (s : string) : N * nat * string :=
  match s with
  | String c r =>
      match xdigit_val c with
      | Some d => mant_hex (16 * acc + d) (S n) r
      | None => (acc, n, s)
      end
  | EmptyString => (acc, n, s)
  end.

(** optional exponent introduced by one of two letters *)
Definition exponent (lo up : ascii) (s : string) : Z :=
  match s with
  | String c r =>
      if Ascii.eqb c lo || Ascii.eqb c up then
        let '(neg, r') := sign_of r in
        let z := Z.of_N (take_digits 0 r') in
        if neg then (- z)%Z else z
      else 0%Z
  | EmptyString => 0%Z
  end.

(** mantissa with optional fraction *)
Definition mantissa (md : N -> nat -> string -> N * nat * string) (s : string)
  : option (N * Z * string) :=
  let '(a, n, r) := md 0%N 0%nat s in
  match r with
  | String "." r' =>
      let '(b, k, r'') := md a 0%nat r' in
      if (n + k =? 0)%nat then None else Some (b, Z.of_nat k, r'')
  | _ => if (n =? 0)%nat then None else Some (a, 0%Z, r)
  end.

Fixpoint prefix_ci (p s : string) : bool :=
  match p, s with
  | EmptyString, _ => true
  | String a p', String b s' => Ascii.eqb a (to_lower b) && prefix_ci p' s'
  | _, _ => false
  end.

(** atof: strtod, correctly rounded, with inf, nan and hexadecimal input *)
Definition atof (s : string) : dbl :=
  let '(neg, r) := sign_of (drop_while is_space s) in
  if prefix_ci "inf" r then S754_infinity neg
  else if prefix_ci "nan" r then S754_nan
  else
    let decimal :=
      match mantissa mant_dec r with
      | Some (n, k, rest) => dbl_of_decimal neg n (exponent "e" "E" rest - k)
      | None => S754_zero false
      end in
    match r with
    | String "0" (String x r') =>
        if Ascii.eqb x "x" || Ascii.eqb x "X" then
          match mantissa mant_hex r' with
          | Some (n, k, rest) =>
              let e := (exponent "p" "P" rest - 4 * k)%Z in
              match n with
              | N0 => S754_zero neg
              | Npos p =>
                  match e with
                  | Zneg q => dbl_of_ratio neg p (Pos.pow 2 q)
                  | _ => binary_normalize dprec demax
                           (let m := (Zpos p * 2 ^ e)%Z in if neg then (- m)%Z else m) 0 neg
                  end
              end
          | None => decimal
          end
        else decimal
    | _ => decimal
    end.

(** ** resplit, dbclineparser.cpp 64-79 *)

(** submatch -1 with an expression [class]: every delimiter character ends a token.  A trailing
    empty token is not produced; without any match the whole string is the only token. *)
Fixpoint split_each_from (p : ascii -> bool) (rcur : string) (seen : bool) (s : string)
  : list string :=
  match s with
  | EmptyString => if seen && String.eqb rcur "" then [] else [rev_string rcur]
  | String c r =>
      if p c then rev_string rcur :: split_each_from p "" true r
      else split_each_from p (String c rcur) seen r
  end.
Definition split_each (p : ascii -> bool) (s : string) : list string :=
  split_each_from p "" false s.

(** submatch -1 with an expression [class]+: every maximal run of delimiters ends a token *)
Fixpoint split_runs_from (p : ascii -> bool) (rcur : string) (indelim : bool) (s : string)
  : list string :=
  match s with
  | EmptyString => if indelim then [] else [rev_string rcur]
  | String c r =>
      if p c then
        if indelim then split_runs_from p "" true r
        else rev_string rcur :: split_runs_from p "" true r
      else split_runs_from p (String c rcur) false r
  end.
Definition split_runs (p : ascii -> bool) (s : string) : list string :=
  split_runs_from p "" false s.

(** kRegSigSplit1 "(\s+:\s+)" at the start of [s]: the text after the match *)
Definition match_colon (s : string) : option string :=
  match s with
  | String c _ =>
      if is_space c then
        match drop_while is_space s with
        | String k r =>
            if Ascii.eqb k ":" then
              match r with
              | String c' _ => if is_space c' then Some (drop_while is_space r) else None
              | EmptyString => None
              end
            else None
        | EmptyString => None
        end
      else None
  | EmptyString => None
  end.

(** submatch -1 with kRegSigSplit1 *)
Fixpoint split_colon_from (fuel : nat) (rcur : string) (seen : bool) (s : string) : list string :=
  match fuel with
  | O => []
  | S f =>
      match s with
      | EmptyString => if seen && String.eqb rcur "" then [] else [rev_string rcur]
      | String c r =>
          match match_colon s with
          | Some rest => rev_string rcur :: split_colon_from f "" true rest
          | None => split_colon_from f (String c rcur) seen r
          end
      end
  end.
Definition split_colon (s : string) : list string :=
  split_colon_from (S (String.length s)) "" false s.

(** the text up to the next quote and the text after it *)
Fixpoint to_quote (s : string) : option (string * string) :=
  match s with
  | EmptyString => None
  | String c r =>
      if Ascii.eqb c DQ then Some ("", r)
      else match to_quote r with Some (a, b) => Some (String c a, b) | None => None end
  end.

(** submatch 0 with kRegValTable (either a run of characters other than blanks and quotes, or a
    quote, a run of characters other than quotes, and a quote): words and quoted texts, the
    latter with their quotes *)
Fixpoint val_items_from (fuel : nat) (s : string) : list string :=
  match fuel with
  | O => []
  | S f =>
      match s with
      | EmptyString => []
      | String c r =>
          if is_space c then val_items_from f r
          else if Ascii.eqb c DQ then
            match to_quote r with
            | Some (a, b) => (dq ++ a ++ dq) :: val_items_from f b
            | None => val_items_from f r
            end
          else let '(w, rest) := span (fun c => negb (is_space c || Ascii.eqb c DQ)) s in
               w :: val_items_from f rest
      end
  end.
Definition val_items (s : string) : list string := val_items_from (S (String.length s)) s.

(** ltrim, rtrim, trim: dbclineparser.cpp 81-96; the default set is the set of \s *)
Fixpoint rtrim (s : string) : string :=
  match s with
  | EmptyString => ""
  | String c r =>
      match rtrim r with
      | EmptyString => if is_space c then "" else String c ""
      | r' => String c r'
      end
  end.
Definition trim (s : string) : string := drop_while is_space (rtrim s).

(** clear_msgid, dbclineparser.cpp 98-101 *)
Definition clear_msgid (z : Z) : Z := Z.land z 0x1FFFFFFF.

(** ** Messages *)

(** regMessage "[^A-Za-z0-9_.-]" *)
Definition msg_delim (c : ascii) : bool :=
  negb (is_alnum c || Ascii.eqb c "_" || Ascii.eqb c "." || Ascii.eqb c "-").

(** std::string::find(p) == 0 *)
Definition starts_with (p s : string) : bool := String.prefix p s.

(** IsMessageLine, dbclineparser.cpp 107-115 *)
Definition is_message_line (line : string) : bool := starts_with "BO_ " line.

(** SetDefualtMessage, dbcscanner.cpp 320-338 *)
Definition default_message : message :=
  {| g_name := ""; g_dlc := 0; g_id := 0; g_ext := 0; g_cycle := 0; g_trans := []; g_recs := [];
     g_sigs := []; g_hasphys := false; g_notempty := false; g_roll := None; g_csm := None;
     g_csmmethod := ""; g_csmop := 0; g_comment := "" |}.

(** ParseMessageLine, dbclineparser.cpp 117-150, on a default message.  None: refused. *)
Definition parse_message_line (line : string) : option message :=
  let items := split_each msg_delim line in
  if (List.length items <? 5)%nat then None
  else
    let txname := nth 5 items "" in
    let id := uwrap 32 (atoll (nth 1 items "")) in
    let dlc := uwrap 8 (atoi (nth 4 items "")) in
    if negb (Z.land id 0x60000000 =? 0)%Z || (dlc =? 0)%Z || (64 <? dlc)%Z then None
    else
      Some {| g_name := nth 2 items "";
              g_dlc := dlc;
              g_id := clear_msgid id;
              g_ext := if (Z.land (uwrap 8 (Z.shiftr id 29)) 4 =? 4)%Z then 1 else 0;
              g_cycle := 0;
              g_trans := if (1 <? String.length txname)%nat then [txname] else [];
              g_recs := []; g_sigs := []; g_hasphys := false; g_notempty := false;
              g_roll := None; g_csm := None; g_csmmethod := ""; g_csmop := 0; g_comment := "" |}.

(** kTransmittersList "[^a-zA-Z_0-9]+" *)
Definition trans_delim (c : ascii) : bool := negb (is_alnum c || Ascii.eqb c "_").

(** ParseMultiTrans, dbclineparser.cpp 152-172: message id (0 for other lines) and nodes *)
Definition parse_multi_trans (line : string) : Z * list string :=
  let chunks := split_runs trans_delim line in
  if (3 <=? List.length chunks)%nat && String.eqb (nth 0 chunks "") "BO_TX_BU_" then
    let id := clear_msgid (uwrap 32 (atoll (nth 1 chunks ""))) in
    (id, if (id =? 0)%Z then [] else skipn 2 chunks)
  else (0%Z, []).

(** ** Signals *)

(** regex_search "\s+SG_", IsSignalLine, dbclineparser.cpp 175-180 *)
Fixpoint is_signal_line (line : string) : bool :=
  match line with
  | EmptyString => false
  | String c r => (is_space c && starts_with "SG_" r) || is_signal_line r
  end.

(** kRegSigReceivers "[^A-Za-z0-9_.+-]+" *)
Definition recv_delim (c : ascii) : bool :=
  negb (is_alnum c || Ascii.eqb c "_" || Ascii.eqb c "." || Ascii.eqb c "+" || Ascii.eqb c "-").

Definition is_quote (c : ascii) : bool := Ascii.eqb c DQ.

(** cast of a double to int64_t *)
Definition cast_i64 (d : dbl) : res Z :=
  match dtrunc d with
  | Some z => if (- 2 ^ 63 <=? z)%Z && (z <? 2 ^ 63)%Z then Ok z else UB "double to int64_t"
  | None => UB "double to int64_t"
  end.

(** int64_t arithmetic *)
Definition i64 (z : Z) : res Z :=
  if (- 2 ^ 63 <=? z)%Z && (z <? 2 ^ 63)%Z then Ok z else UB "int64_t overflow".

(** std::pow(2, n), exact *)
Definition pow2 (n : Z) : dbl :=
  match n with
  | Zneg q => dbl_of_ratio false 1 (Pos.pow 2 q)
  | _ => dbl_of_Z (2 ^ n)
  end.

(** __maxunsigvalues, __maxsignedvals, dbclineparser.cpp 39-53, on a platform where char is signed *)
Definition max_unsig : list Z := [2 ^ 8 - 1; 2 ^ 16 - 1; 2 ^ 32 - 1; 2 ^ 64 - 1]%Z.
Definition max_signed : list Z := [2 ^ 7 - 1; 2 ^ 15 - 1; 2 ^ 31 - 1; 2 ^ 63 - 1]%Z.
Definition unsig_types : list cty := [U8; U16; U32; U64].
Definition signed_types : list cty := [I8; I16; I32; I64].

(** the loops over the type tables: the first type whose limit (plus addon) is not exceeded,
    otherwise the last one *)
Fixpoint pick_type (v addon : Z) (types : list cty) (limits : list Z) (last : cty) : cty :=
  match types, limits with
  | t :: tr, m :: mr => if (v <=? m + addon)%Z then t else pick_type v addon tr mr t
  | _, _ => last
  end.

(** GetSigType, dbclineparser.cpp 325-430: TypeRo and TypePhys.  IsSimpleSig is false whenever it
    is called.  The unused local roffset is computed by a cast that can overflow. *)
Definition get_sig_type (signed : bool) (len : Z) (isdouble : bool) (factor offset : dbl)
  : res (cty * cty) :=
  do _ <- cast_i64 (ddiv offset factor);
  do max_abs <- cast_i64 (dsub (pow2 (if signed then len - 1 else len)%Z) (dbl_of_Z 1));
  do min_abs <- (if signed then do a <- i64 (max_abs + 1); i64 (a * -1) else Ok 0%Z);
  let ro := if signed then pick_type max_abs 0 signed_types max_signed I8
            else pick_type max_abs 0 unsig_types max_unsig U8 in
  if isdouble then Ok (ro, ro)
  else
    do i_offset <- cast_i64 offset;
    do i_factor <- cast_i64 factor;
    do a <- i64 (max_abs * i_factor);
    do max2 <- i64 (a + i_offset);
    do b <- i64 (min_abs * i_factor);
    do min2 <- i64 (b + i_offset);
    if signed || (max2 <? 0)%Z || (min2 <? 0)%Z then
      do absmax <- i64 (Z.abs max2);
      do absmin <- i64 (Z.abs min2);
      if (absmax + 1 <? absmin)%Z
      then Ok (ro, pick_type absmin 1 signed_types max_signed I8)
      else Ok (ro, pick_type absmax 0 signed_types max_signed I8)
    else Ok (ro, pick_type max2 0 unsig_types max_unsig U8).

(** MIN_FAC_OFF, dbclineparser.cpp 11 *)
Definition min_fac_off : dbl := dbl_of_decimal false 1 (-9).

Definition too_small (d : dbl) : bool :=
  dltb (dabs d) min_fac_off && negb (deqb d (S754_zero false)).

Definition has_any (cs : list ascii) (s : string) : bool :=
  existsb (fun c => has_char c s) cs.

(** ParseSignalLine, dbclineparser.cpp 182-322.  None: refused. *)
Definition parse_signal_line (line : string) : res (option signal) :=
  let halfs := split_colon line in
  if (List.length halfs <? 2)%nat then Ok None
  else
    let tailpart := split_each is_quote (nth 1 halfs "") in
    let valpart := split_runs recv_delim (trim (nth 0 tailpart "")) in
    let halfs := val_items (nth 0 halfs "") in
    if (List.length halfs <? 2)%nat then Ok None
    else if (List.length valpart <? 7)%nat then Ok None
    else
      let v := fun i => nth i valpart "" in
      let len := uwrap 8 (atoi (v 1%nat)) in
      let marks := [ch 46; ch 69; ch 101] in   (* . E e *)
      let isdouble0 := has_any marks (v 3%nat) || has_any marks (v 4%nat) in
      let factor0 := atof (v 3%nat) in
      let offset0 := atof (v 4%nat) in
      let small := too_small factor0 || too_small offset0 in
      let factor := if small then dbl_of_Z 1 else factor0 in
      let offset := if small then S754_zero false else offset0 in
      let isdouble := if small then false else isdouble0 in
      let signed := has_char "-" (v 2%nat) in
      do types <- get_sig_type signed len isdouble factor offset;
      let simple := negb isdouble && deqb factor (dbl_of_Z 1)
                    && deqb offset (S754_zero false) in
      let name := nth 1 halfs "" in
      if (List.length tailpart =? 3)%nat then
        Ok (Some
          {| s_name := if simple then name else name ++ "_ro";
             s_namefloat := if simple then "" else name ++ "_phys";
             s_unit := nth 1 tailpart "";
             s_start := uwrap 32 (atoi (v 0%nat));
             s_len := len;
             s_double := isdouble;
             s_simple := simple;
             s_factor := factor;
             s_offset := offset;
             s_order := if has_char "1" (v 2%nat) then Intel else Motorola;
             s_signed := signed;
             s_typero := fst types;
             s_typephys := snd types;
             s_recs := split_runs recv_delim (trim (nth 2 tailpart ""));
             s_valdefs := [];
             s_comment := "";
             s_valtext := "";
             s_mux := if (List.length halfs =? 3)%nat
                      then if String.eqb (nth 2 halfs "") "M" then MxMaster else MxValue
                      else MxNone |})
      else Ok None.

(** ** Comments, attributes, value tables *)

(** what a complete entry refers to *)
Inductive target := TgMessage | TgSignal (name : string) | TgNone.

(** the text collected so far and the text after a line; [start] is the keyword, [glue] is put
    between lines (dbclineparser.cpp 438-447, 511-519, 550-558) *)
Definition collect (start glue acc line : string) : string :=
  if starts_with start line then line
  else if String.eqb acc "" then acc
  else acc ++ glue ++ line.

Definition ends_entry (acc line : string) : bool :=
  negb (String.eqb acc "")
  && match last_char line with Some c => Ascii.eqb c ";" | None => false end.

(** drops one trailing line feed *)
Definition pop_nl (s : string) : string :=
  match last_char s with
  | Some c => if Ascii.eqb c NL then substring 0 (String.length s - 1) s else s
  | None => s
  end.

Definition space_delim (c : ascii) : bool := Ascii.eqb c " ".

(** ParseCommentLine, dbclineparser.cpp 432-503: new pending text and, when an entry was
    completed and accepted, its message id, target and text.  Fields of Comment_t that keep an
    older value are not read by the caller. *)
Definition parse_comment_line (acc line : string) : string * option (Z * target * string) :=
  if String.eqb line "" then (acc, None)
  else
    let acc := collect "CM_" nl acc line in
    if ends_entry acc line then
      let items := split_each is_quote acc in
      ("",
       if (List.length items =? 3)%nat then
         let meta := split_runs space_delim (nth 0 items "") in
         if (3 <=? List.length meta)%nat then
           let id := clear_msgid (uwrap 32 (atoll (nth 2 meta ""))) in
           let tg := if String.eqb (nth 1 meta "") "SG_" && (List.length meta =? 4)%nat
                     then TgSignal (nth 3 meta "")
                     else if String.eqb (nth 1 meta "") "BO_" then TgMessage else TgNone in
           Some (id, tg, pop_nl (nth 1 items ""))
         else Some (0%Z, TgNone, "")
       else None)
    else (acc, None).

(** kRegAttrMain "[^A-Za-z0-9_\.]+" *)
Definition attr_delim (c : ascii) : bool :=
  negb (is_alnum c || Ascii.eqb c "_" || Ascii.eqb c ".").

(** ParseAttributeLine, dbclineparser.cpp 505-542: pending text, message id and cycle time *)
Definition parse_attribute_line (acc line : string) : string * option (Z * Z) :=
  if String.eqb line "" then (acc, None)
  else
    let acc := collect "BA_ " "" acc line in
    if ends_entry acc line then
      let items := split_runs attr_delim acc in
      ("",
       if (4 <? List.length items)%nat && String.eqb (nth 1 items "") "GenMsgCycleTime"
          && String.eqb (nth 2 items "") "BO_"
       then Some (clear_msgid (uwrap 32 (atoll (nth 3 items ""))), atoi (nth 4 items ""))
       else None)
    else (acc, None).

(** the pairs of a value table, dbclineparser.cpp 578-586 *)
Fixpoint val_pairs (items : list string) : list (string * string) :=
  match items with
  | a :: b :: r => (a, b) :: val_pairs r
  | _ => []
  end.

(** ParseValTableLine, dbclineparser.cpp 544-603: pending text, and message id, signal name, value
    text and definitions *)
Definition parse_val_line (acc line : string)
  : string * option (Z * string * string * list (string * Z)) :=
  if String.eqb line "" then (acc, None)
  else
    let acc := collect "VAL_ " "" acc line in
    if ends_entry acc line then
      let items := val_items acc in
      let n := List.length items in
      ("",
       if (3 <=? n)%nat && String.eqb (last items "") ";" && Nat.even n then
         let pairs := val_pairs (firstn (n - 4) (skipn 3 items)) in
         let text := sconcat (map (fun p => " " ++ fst p ++ " : " ++ snd p ++ nl) pairs) in
         Some (clear_msgid (uwrap 32 (atoll (nth 1 items ""))), nth 2 items "",
               substring 0 (String.length text - 1) text,
               map (fun p => (make_c_name (snd p), uwrap 32 (atoll (fst p)))) pairs)
       else None)
    else (acc, None).

(** ** Version: ParseVersionLine and FindVersion, dbcscanner.cpp 341-400 *)

(** std::stoul into uint32_t *)
Definition stoul32 (s : string) : res Z :=
  let z := Z.of_N (take_digits 0 s) in
  if (z <? 2 ^ 64)%Z then Ok (uwrap 32 z) else Throw "std::out_of_range".

Definition opt_quote (s : string) : string :=
  match s with
  | String c r => if Ascii.eqb c DQ then r else s
  | EmptyString => s
  end.

(** regex_match with the expression of dbcscanner.cpp 349: letters, blanks, an optional quote,
    digits, non-digits, digits, an optional quote.  The result is the word and the two digit
    runs.  Each piece is maximal in any match, so no backtracking is needed. *)
Definition match_version (line : string) : option (string * string * string) :=
  let '(w, r) := span is_alpha line in
  let r := opt_quote (drop_while is_space r) in
  let '(a, r) := span is_digit r in
  let '(sep, r) := span (fun c => negb (is_digit c)) r in
  let '(b, r) := span is_digit r in
  if negb (String.eqb w "") && negb (String.eqb a "") && negb (String.eqb sep "")
     && negb (String.eqb b "") && (String.eqb r "" || String.eqb r dq)
  then Some (w, a, b) else None.

(** None: no version line *)
Definition find_version (line : string) : res (option (Z * Z)) :=
  match match_version line with
  | None => Ok None
  | Some (w, a, b) =>
      do hi <- stoul32 a;
      do low <- stoul32 b;
      Ok (if String.eqb (str_tolower w) "version" then Some (hi, low) else None)
  end.
