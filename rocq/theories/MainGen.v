(** Model of /repo/src/codegen/c-main-generator.cpp: the text of the driver header and source.
    Every function returns the list of pieces written to the stream, in order. *)

From Coq Require Import ZArith NArith List String Ascii Bool.
From Coq Require Import Floats.SpecFloat.
From Verif Require Import Base Dbl CSyntax Types Formatter SigPrinter Writer Settings StaticText.
Import ListNotations.
Open Scope string_scope.

(** std::sort by an unsigned key: the model takes the routine as a parameter *)
Definition sorter : Type := forall A : Type, (A -> Z) -> list A -> list A.

(** an executable instance: stable insertion sort *)
Fixpoint insert_by {A} (key : A -> Z) (a : A) (l : list A) : list A :=
  match l with
  | [] => [a]
  | b :: r => if (key a <? key b)%Z then a :: l else b :: insert_by key a r
  end.
Definition isort : sorter :=
  fun A key l => fold_left (fun acc a => insert_by key a acc) l [].

(** std::regex_replace(text, "\n", "\n" + tail) *)
Fixpoint replace_nl (tail s : string) : string :=
  match s with
  | EmptyString => ""
  | String c r =>
      if Ascii.eqb c NL then String NL (tail ++ replace_nl tail r)
      else String c (replace_nl tail r)
  end.

(** %u and %d of a non-negative value in range of the conversion *)
Definition pu (z : Z) : string := dec (Z.to_N z).
(** %#x: no prefix for zero *)
Definition px (z : Z) : string := if (z =? 0)%Z then "0" else "0x" ++ hexl (Z.to_N z).
(** %2d *)
Definition pd2 (z : Z) : string := pad_left 2 " " (decZ z).
(** %-4d *)
Definition pd4l (z : Z) : string := pad_right 4 " " (decZ z).
(** %02X *)
Definition pX2 (z : Z) : string := pad_left 2 "0" (hexu (Z.to_N z)).

Fixpoint map_res {A B} (f : A -> res B) (l : list A) : res (list B) :=
  match l with
  | [] => Ok []
  | a :: r => do b <- f a; do bs <- map_res f r; Ok (b :: bs)
  end.

(** ** Header *)

Definition has_text (s : string) : bool := negb (String.eqb s "").

(** info comment of a field, c-main-generator.cpp 603-646 *)
Definition info_comment (sg : signal) : res string :=
  let off0 := deqb (s_offset sg) (S754_zero false) in
  let fac1 := deqb (s_factor sg) (dbl_of_Z 1) in
  do st <-
    (if s_double sg then
       let '(o, c) := if off0 then (0%nat, "")
                      else (27%nat, "" ++ " Offset= " ++ prt_double (s_offset sg) 9) in
       Ok (if fac1 then (o, c)
           else ((o + 24)%nat, indented_string o c ++ " Factor= " ++ prt_double (s_factor sg) 9))
     else if s_simple sg then Ok (0%nat, "")
     else
       do oc <- (if off0 then Ok (0%nat, "")
                 else do z <- cast_i32 (s_offset sg);
                      Ok (27%nat, "" ++ str_print (" Offset= " ++ decZ z)));
       let '(o, c) := oc in
       if fac1 then Ok (o, c)
       else do z <- cast_i32 (s_factor sg);
            Ok ((o + 24)%nat, indented_string o c ++ str_print (" Factor= " ++ decZ z)));
  let '(o, c) := st in
  Ok (if has_text (s_unit sg)
      then indented_string o c ++ str_print (" Unit:'" ++ s_unit sg ++ "'")
      else c).

(** declaration with padding, c-main-generator.cpp 579-594.  The count passed to
    std::string::insert is computed in size_t; when it wraps the call throws. *)
Definition field_decl (sg : signal) (bits : bool) (padwidth : nat) : res string :=
  let dtype := "  " ++ print_type (s_typero sg) ++ " " ++ s_name sg
               ++ (if bits && (s_len sg <? 8)%Z then str_print (" : " ++ decZ (s_len sg)) else "")
               ++ ";" in
  if (padwidth + 16 <? String.length dtype)%nat then Throw "std::length_error"
  else Ok (dtype ++ repeat_char (padwidth + 16 - String.length dtype) " " ++ " ").

(** WriteSigStructField, c-main-generator.cpp 558-677 *)
Definition sig_struct_field (g : gendesc) (bits : bool) (padwidth : nat) (sg : signal)
  : res (list string) :=
  do decl <- field_decl sg bits padwidth;
  do info <- info_comment sg;
  Ok ((if has_text (s_comment sg)
       then [append_s ("  // " ++ replace_nl "  // " (s_comment sg))] else [])
        ++ (if has_text (s_valtext sg)
            then [append_s ("  // " ++ replace_nl "  // " (s_valtext sg))] else [])
        ++ (match s_mux sg with
            | MxValue => [L "  // multiplex variable"]
            | MxMaster => [L "  // MULTIPLEX master signal"]
            | MxNone => []
            end)
        ++ [decl; (" // " ++ (if s_signed sg then " [-]" else "    "))%string;
            text_f (" Bits=" ++ pd2 (s_len sg)); info; L ""; nls 1]
        ++ (if s_simple sg then []
            else [L ("#ifdef " ++ n_usesigfloat g);
                  (if s_double sg then L ("  sigfloat_t " ++ s_namefloat sg ++ ";")
                   else L ("  " ++ print_type (s_typephys sg) ++ " " ++ s_namefloat sg ++ ";"));
                  L ("#endif // " ++ n_usesigfloat g); nls 1]))%list.

(** value table definitions of a signal, c-main-generator.cpp 199-223 *)
Definition value_table (m : message) (sg : signal) : list string :=
  match s_valdefs sg with
  | [] => []
  | vd =>
      (L (nl ++ "// Value tables for @" ++ s_name sg ++ " signal") :: nls 1 ::
       List.concat (map (fun p =>
         let defname := str_print (s_name sg ++ "_" ++ g_name m ++ "_" ++ fst p) in
         [L ("#ifndef " ++ defname);
          L ("#define " ++ s_name sg ++ "_" ++ g_name m ++ "_" ++ fst p ++ " ("
               ++ decZ (swrap 32 (snd p)) ++ ")");
          L "#endif"; nls 1]) vd))%list
  end.

(** conversion macros and value tables of all signals of a message,
    c-main-generator.cpp 180-224; [passed] is the set passed_sigs *)
Fixpoint sig_macros (g : gendesc) (m : message) (passed : list string) (sgs : list signal)
  : res (list string * list string) :=
  match sgs with
  | [] => Ok (passed, [])
  | sg :: r =>
      do pt <-
        (if s_simple sg || smem (s_name sg) passed then Ok (passed, [])
         else do t <- print_physical_to_raw sg (n_DRV g);
              Ok (s_name sg :: passed, [append_s t])%list);
      let '(passed1, t) := pt in
      do rest <- sig_macros g m passed1 r;
      let '(passed2, ts) := rest in
      Ok (passed2, t ++ value_table m sg ++ ts)%list
  end.

Definition max_name_len (sgs : list signal) : nat :=
  fold_left (fun acc sg => Nat.max acc (String.length (s_name sg))) sgs 27%nat.

(** the descriptor of the expected rolling counter, c-main-generator.cpp 234-242 *)
Definition expt_sig (sg : signal) : signal :=
  {| s_name := s_name sg ++ "_expt"; s_namefloat := s_namefloat sg; s_unit := s_unit sg;
     s_start := s_start sg; s_len := s_len sg; s_double := s_double sg; s_simple := s_simple sg;
     s_factor := s_factor sg; s_offset := s_offset sg; s_order := s_order sg;
     s_signed := s_signed sg; s_typero := s_typero sg; s_typephys := s_typephys sg;
     s_recs := s_recs sg; s_valdefs := s_valdefs sg; s_comment := ""; s_valtext := s_valtext sg;
     s_mux := s_mux sg |}.

(** one layout (bit fields or plain) of the struct body, c-main-generator.cpp 244-278 *)
Definition struct_fields (g : gendesc) (m : message) (bits : bool) (w : nat)
  : res (list string) :=
  do fs <- map_res (sig_struct_field g bits w) (g_sigs m);
  do r <- (match roll_sig m with
           | None => Ok []
           | Some sg =>
               do f <- sig_struct_field g bits w (expt_sig sg);
               Ok ([L ("#ifdef " ++ n_useroll g); nls 1] ++ f
                     ++ [L ("#endif // " ++ n_useroll g); nls 1])%list
           end);
  Ok (List.concat fs ++ r)%list.

(** identification part of a message, c-main-generator.cpp 155-169 *)
Definition msg_consts (m : message) : list string :=
  ((if has_text (g_comment m) then [append_s ("// " ++ replace_nl "// " (g_comment m))] else [])
     ++ [L ("// def @" ++ g_name m ++ " CAN Message (" ++ pd4l (swrap 32 (g_id m)) ++ " "
              ++ px (g_id m) ++ ")");
         L ("#define " ++ g_name m ++ "_IDE (" ++ pu (g_ext m) ++ "U)");
         L ("#define " ++ g_name m ++ "_DLC (" ++ pu (g_dlc m) ++ "U)");
         L ("#define " ++ g_name m ++ "_CANID (" ++ px (g_id m) ++ "U)")]
     ++ (if (0 <? g_cycle m)%Z
         then [L ("#define " ++ g_name m ++ "_CYC (" ++ decZ (swrap 32 (g_cycle m)) ++ "U)")]
         else []))%list.

(** one message in the header, c-main-generator.cpp 150-292 *)
Definition msg_header (g : gendesc) (passed : list string) (m : message)
  : res (list string * list string) :=
  if negb (g_notempty m) then Ok (passed, msg_consts m ++ [nls 1])%list
  else
    do pm <- sig_macros g m passed (g_sigs m);
    let '(passed', macros) := pm in
    let w := max_name_len (g_sigs m) in
    do bitpart <- struct_fields g m true w;
    do plainpart <- struct_fields g m false w;
    Ok (passed',
        msg_consts m ++ macros
          ++ [nls 1; L "typedef struct"; L "{"; L ("#ifdef " ++ n_usebits g); nls 1]
          ++ bitpart ++ [L "#else"; nls 1] ++ plainpart
          ++ [L ("#endif // " ++ n_usebits g); nls 1;
              L ("#ifdef " ++ n_usemon g); nls 1; L "  FrameMonitor_t mon1;"; nls 1;
              L ("#endif // " ++ n_usemon g); nls 1;
              L ("} " ++ g_name m ++ "_t;"); nls 1])%list.

Fixpoint msg_headers (g : gendesc) (passed : list string) (l : list ciexpr)
  : res (list string) :=
  match l with
  | [] => Ok []
  | x :: r =>
      do pt <- msg_header g passed (x_msg x);
      let '(passed', t) := pt in
      do ts <- msg_headers g passed' r;
      Ok (t ++ ts)%list
  end.

(** prototypes, c-main-generator.cpp 294-323 *)
Definition msg_prototypes (g : gendesc) (m : message) : list string :=
  if negb (g_notempty m) then []
  else
    [L ("uint32_t Unpack_" ++ g_name m ++ "_" ++ n_orig g ++ "(" ++ g_name m
          ++ "_t* _m, const uint8_t* _d, uint8_t dlc_);");
     L ("#ifdef " ++ n_usestruct g);
     L ("uint32_t Pack_" ++ g_name m ++ "_" ++ n_orig g ++ "(" ++ g_name m
          ++ "_t* _m, __CoderDbcCanFrame_t__* cframe);");
     L "#else";
     L ("uint32_t Pack_" ++ g_name m ++ "_" ++ n_orig g ++ "(" ++ g_name m
          ++ "_t* _m, uint8_t* _d, uint8_t* _len, uint8_t* _ide);");
     L ("#endif // " ++ n_usestruct g); nls 1].

Definition maxdlc_name (g : gendesc) : string := n_DRV g ++ "_MAX_DLC_VALUE".
Definition validate_name (g : gendesc) : string := n_DRV g ++ "_VALIDATE_DLC".
Definition initial_name (g : gendesc) : string := n_DRV g ++ "_INITIAL_BYTE_VALUE".

Definition cpp_open : string :=
  "#ifdef __cplusplus" ++ nl ++ "extern " ++ dq ++ "C" ++ dq ++ " {" ++ nl ++ "#endif".
Definition cpp_close : string := "#ifdef __cplusplus" ++ nl ++ "}" ++ nl ++ "#endif".

(** the part of the header before the messages, c-main-generator.cpp 86-148 *)
Definition header_top (g : gendesc) (maxdlc : Z) : list string :=
  [n_cominfo g; n_drvinfo g; L "#pragma once"; nls 1; L cpp_open; nls 1; L "#include <stdint.h>";
   nls 1; L "// DBC file version";
   L ("#define " ++ n_verhi g ++ " (" ++ pu (n_hi g) ++ "U)");
   L ("#define " ++ n_verlow g ++ " (" ++ pu (n_low g) ++ "U)");
   nls 1;
   L "// include current dbc-driver compilation config";
   L ("#include " ++ dq ++ n_drv g ++ "-config.h" ++ dq);
   nls 1;
   L ("#ifdef " ++ n_usemon g);
   L ("// This file must define:" ++ nl ++ "// base monitor struct" ++ nl
        ++ "#include " ++ dq ++ "canmonitorutil.h" ++ dq ++ nl ++ nl);
   L ("#endif // " ++ n_usemon g);
   nls 2;
   L "// DLC maximum value which is used as the limit for frame's data buffer size.";
   L "// Client can set its own value (not sure why) in driver-config";
   L "// or can test it on some limit specified by application";
   L ("// e.g.: static_assert(TESTDB_MAX_DLC_VALUE <= APPLICATION_FRAME_DATA_SIZE, " ++ dq
        ++ "Max DLC value in the driver is too big" ++ dq ++ ")");
   L ("#ifndef " ++ maxdlc_name g);
   L "// The value which was found out by generator (real max value)";
   L ("#define " ++ maxdlc_name g ++ " " ++ pu maxdlc ++ "U");
   L "#endif";
   nls 1;
   L "// The limit is used for setting frame's data bytes";
   L ("#define " ++ validate_name g ++ "(msgDlc) (((msgDlc) <= (" ++ maxdlc_name g
        ++ ")) ? (msgDlc) : (" ++ maxdlc_name g ++ "))");
   nls 1;
   L "// Initial byte value to be filles in data bytes of the frame before pack signals";
   L "// User can define its own custom value in driver-config file";
   L ("#ifndef " ++ initial_name g);
   L ("#define " ++ initial_name g ++ " 0U");
   L "#endif";
   nls 2].

(** Gen_MainHeader, c-main-generator.cpp 83-329 *)
Definition main_header (g : gendesc) (maxdlc : Z) (xs : list ciexpr) : res (list string) :=
  do ms <- msg_headers g [] xs;
  Ok (header_top g maxdlc ++ ms
        ++ [L "// Function signatures"; nls 1]
        ++ List.concat (map (fun x => msg_prototypes g (x_msg x)) xs)
        ++ [L cpp_close])%list.

(** ** Source *)

Definition ext_sig_name : string := "__ext_sig__".

(** extend_func_body, c-main-generator.cpp 19-32 *)
Definition extend_func_text : string :=
  "// This function performs extension of sign for the signals" ++ nl
  ++ "// whose bit width value is not aligned to one of power of 2 or less than 8." ++ nl
  ++ "// The types 'bitext_t' and 'ubitext_t' define the biggest bit width which" ++ nl
  ++ "// can be correctly handled. You need to select type which can contain" ++ nl
  ++ "// n+1 bits where n is the largest signed signal width. For example if" ++ nl
  ++ "// the most wide signed signal has a width of 31 bits you need to set" ++ nl
  ++ "// bitext_t as int32_t and ubitext_t as uint32_t" ++ nl
  ++ "// Defined these typedefs in @dbccodeconf.h or locally in 'dbcdrvname'-config.h" ++ nl
  ++ "static bitext_t " ++ ext_sig_name ++ "(ubitext_t val, uint8_t bits)" ++ nl
  ++ "{" ++ nl
  ++ "  ubitext_t const m = (ubitext_t) (1u << (bits - 1u));" ++ nl
  ++ "  return ((val ^ m) - m);" ++ nl
  ++ "}" ++ nl ++ nl.

(** the mask (1 << LengthBit) - 1 of a rolling counter, computed in int *)
Definition roll_mask (sg : signal) : res Z :=
  if (s_len sg <? 31)%Z then Ok (Z.shiftl 1 (s_len sg) - 1)%Z else UB "int overflow in 1 << LengthBit".

(** lines of one signal in Unpack, c-main-generator.cpp 681-722; [last] tells the last signal *)
Definition unpack_sig (g : gendesc) (sg : signal) (e : string) (last : bool) : list string :=
  let nm := s_name sg in
  ((if s_signed sg then
      L ("  _m->" ++ nm ++ " = (" ++ print_type (s_typero sg) ++ ") " ++ ext_sig_name ++ "(( "
           ++ e ++ " ), " ++ decZ (s_len sg) ++ ");")
    else
      L ("  _m->" ++ nm ++ " = (" ++ print_type (s_typero sg) ++ ") ( " ++ e ++ " );"))
     ::
   (if s_simple sg then (if last then [L ""] else [])
    else
      [L ("#ifdef " ++ n_usesigfloat g);
       (if s_double sg then
          L ("  _m->" ++ s_namefloat sg ++ " = (sigfloat_t)(" ++ n_DRV g ++ "_" ++ nm
               ++ "_fromS(_m->" ++ nm ++ "));")
        else
          L ("  _m->" ++ s_namefloat sg ++ " = (" ++ print_type (s_typephys sg) ++ ") "
               ++ n_DRV g ++ "_" ++ nm ++ "_fromS(_m->" ++ nm ++ ");"));
       L ("#endif // " ++ n_usesigfloat g); nls 1]))%list.

Fixpoint unpack_sigs (g : gendesc) (sgs : list signal) (es : list string) : list string :=
  match sgs, es with
  | sg :: sr, e :: er =>
      (unpack_sig g sg e (match er with [] => true | _ => false end) ++ unpack_sigs g sr er)%list
  | _, _ => []
  end.

(** WriteUnpackBody, c-main-generator.cpp 679-768 *)
Definition unpack_body (g : gendesc) (x : ciexpr) : res (list string) :=
  let m := x_msg x in
  do roll <- (match roll_sig m with
              | None => Ok []
              | Some sg =>
                  do k <- roll_mask sg;
                  Ok [L ("#ifdef " ++ n_useroll g);
                      L ("  _m->mon1.roll_error = (_m->" ++ s_name sg ++ " != _m->" ++ s_name sg
                           ++ "_expt);");
                      L ("  _m->" ++ s_name sg ++ "_expt = (_m->" ++ s_name sg ++ " + 1) & (0x"
                           ++ pX2 k ++ "U);");
                      L ("#endif // " ++ n_useroll g); nls 1]
              end);
  let csm := match csm_sig m with
             | None => []
             | Some sg =>
                 [L ("#ifdef " ++ n_usecsm g);
                  L ("  _m->mon1.csm_error = (((uint8_t)GetFrameHash(_d, " ++ g_name m ++ "_DLC, "
                       ++ g_name m ++ "_CANID, " ++ g_csmmethod m ++ ", "
                       ++ decZ (swrap 32 (g_csmop m)) ++ ")) != (_m->" ++ s_name sg ++ "));");
                  L ("#endif // " ++ n_usecsm g); nls 1]
             end in
  Ok (unpack_sigs g (g_sigs m) (x_tosig x)
        ++ [L ("#ifdef " ++ n_usemon g);
            L ("  _m->mon1.dlc_error = (dlc_ < " ++ g_name m ++ "_DLC);");
            L "  _m->mon1.last_cycle = GetSystemTick();";
            L "  _m->mon1.frame_cnt++;"; nls 1]
        ++ roll ++ csm
        ++ [L ("  " ++ ("FMon_" ++ g_name m ++ "_" ++ n_drv g) ++ "(&_m->mon1, " ++ g_name m
                 ++ "_CANID);");
            L ("#endif // " ++ n_usemon g); nls 1;
            L ("  return " ++ g_name m ++ "_CANID;")])%list.

(** the |= lines, c-main-generator.cpp 845-853; %d of a size_t below 256 *)
Fixpoint pack_bytes (arr : string) (i : Z) (tb : list string) : list string :=
  match tb with
  | [] => []
  | e :: r =>
      ((if (String.length e <? 2)%nat then []
        else [L ("  " ++ arr ++ "[" ++ decZ i ++ "] |= (uint8_t) ( " ++ e ++ " );")])
         ++ pack_bytes arr (i + 1) r)%list
  end.

(** PrintPackCommonText, c-main-generator.cpp 793-871 *)
Definition pack_common (g : gendesc) (arr : string) (x : ciexpr) : res (list string) :=
  let m := x_msg x in
  do roll <- (match roll_sig m with
              | None => Ok []
              | Some sg =>
                  do k <- roll_mask sg;
                  Ok [L ("#ifdef " ++ n_useroll g);
                      L ("  _m->" ++ s_name sg ++ " = (_m->" ++ s_name sg ++ " + 1) & (0x"
                           ++ pX2 k ++ "U);");
                      L ("#endif // " ++ n_useroll g); nls 1]
              end);
  let csm0 := match csm_sig m with
              | None => []
              | Some sg =>
                  [L ("#ifdef " ++ n_usecsm g);
                   L ("  _m->" ++ s_name sg ++ " = (" ++ print_type (s_typero sg) ++ ") 0;");
                   L ("#endif // " ++ n_usecsm g); nls 1]
              end in
  let phys := if g_hasphys m then
                ([L ("#ifdef " ++ n_usesigfloat g)]
                   ++ List.concat (map (fun sg =>
                        if s_simple sg then []
                        else [L ("  _m->" ++ s_name sg ++ " = (" ++ print_type (s_typero sg)
                                   ++ ") " ++ n_DRV g ++ "_" ++ s_name sg ++ "_toS(_m->"
                                   ++ s_namefloat sg ++ ");")])
                        (firstn (List.length (x_tosig x)) (g_sigs m)))
                   ++ [L ("#endif // " ++ n_usesigfloat g); nls 1])%list
              else [] in
  let csm1 := match csm_sig m with
              | None => []
              | Some sg =>
                  [L ("#ifdef " ++ n_usecsm g);
                   L ("  _m->" ++ s_name sg ++ " = ((uint8_t)GetFrameHash(" ++ arr ++ ", "
                        ++ g_name m ++ "_DLC, " ++ g_name m ++ "_CANID, " ++ g_csmmethod m ++ ", "
                        ++ decZ (swrap 32 (g_csmop m)) ++ "));");
                   L ("  " ++ arr ++ "[" ++ decZ (x_csmbyte x) ++ "] |= (uint8_t) ( "
                        ++ x_csmexpr x ++ " );");
                   L ("#endif // " ++ n_usecsm g); nls 1]
              end in
  Ok ([L ("  uint8_t i; for (i = 0u; i < " ++ validate_name g ++ "(" ++ g_name m ++ "_DLC); "
            ++ arr ++ "[i++] = " ++ initial_name g ++ ");"); nls 1]
        ++ roll ++ csm0 ++ phys ++ pack_bytes arr 0 (x_tobytes x) ++ [L ""] ++ csm1)%list.

(** WritePackStructBody, c-main-generator.cpp 770-780 *)
Definition pack_struct_body (g : gendesc) (x : ciexpr) : res (list string) :=
  let nm := g_name (x_msg x) in
  do c <- pack_common g "cframe->Data" x;
  Ok ([L "{"] ++ c
        ++ [L ("  cframe->MsgId = (uint32_t) " ++ nm ++ "_CANID;");
            L ("  cframe->DLC = (uint8_t) " ++ nm ++ "_DLC;");
            L ("  cframe->IDE = (uint8_t) " ++ nm ++ "_IDE;");
            L ("  return " ++ nm ++ "_CANID;"); L "}"; nls 1])%list.

(** WritePackArrayBody, c-main-generator.cpp 782-791 *)
Definition pack_array_body (g : gendesc) (x : ciexpr) : res (list string) :=
  let nm := g_name (x_msg x) in
  do c <- pack_common g "_d" x;
  Ok ([L "{"] ++ c
        ++ [L ("  *_len = (uint8_t) " ++ nm ++ "_DLC;");
            L ("  *_ide = (uint8_t) " ++ nm ++ "_IDE;");
            L ("  return " ++ nm ++ "_CANID;"); L "}"; nls 1])%list.

(** the functions of one message, c-main-generator.cpp 384-429 *)
Definition msg_source (g : gendesc) (x : ciexpr) : res (list string) :=
  let nm := g_name (x_msg x) in
  if negb (g_notempty (x_msg x)) then Ok []
  else
    do u <- unpack_body g x;
    do ps <- pack_struct_body g x;
    do pa <- pack_array_body g x;
    Ok ([L ("uint32_t Unpack_" ++ nm ++ "_" ++ n_orig g ++ "(" ++ nm
              ++ "_t* _m, const uint8_t* _d, uint8_t dlc_)" ++ nl ++ "{");
         L "  (void)dlc_;"]
          ++ u
          ++ [L "}"; nls 1; L ("#ifdef " ++ n_usestruct g); nls 1;
              L ("uint32_t Pack_" ++ nm ++ "_" ++ n_orig g ++ "(" ++ nm
                   ++ "_t* _m, __CoderDbcCanFrame_t__* cframe)")]
          ++ ps
          ++ [L "#else"; nls 1;
              L ("uint32_t Pack_" ++ nm ++ "_" ++ n_orig g ++ "(" ++ nm
                   ++ "_t* _m, uint8_t* _d, uint8_t* _len, uint8_t* _ide)")]
          ++ pa
          ++ [L ("#endif // " ++ n_usestruct g); nls 1])%list.

(** the part of the source before the functions, c-main-generator.cpp 334-379 *)
Definition source_top (g : gendesc) (coreh : string) : list string :=
  [n_cominfo g; n_drvinfo g; L ("#include " ++ dq ++ coreh ++ dq); nls 2;
   L "// DBC file version";
   L ("#if (" ++ n_verhi g ++ " != (" ++ pu (n_hi g) ++ "U)) || (" ++ n_verlow g ++ " != ("
        ++ pu (n_low g) ++ "U))");
   L ("#error The " ++ n_DRV g ++ " dbc source files have different versions");
   L "#endif"; nls 1;
   L ("#ifdef " ++ n_usemon g);
   L ("// Function prototypes to be called each time CAN frame is unpacked" ++ nl
        ++ "// FMon function may detect RC, CRC or DLC violation" ++ nl);
   L ("#include " ++ dq ++ n_drv g ++ "-fmon.h" ++ dq); nls 1;
   L ("#endif // " ++ n_usemon g); L "";
   L "// This macro guard for the case when you need to enable";
   L "// using diag monitors but there is no necessity in proper";
   L "// SysTick provider. For providing one you need define macro";
   L "// before this line - in dbccodeconf.h"; L "";
   L "#ifndef GetSystemTick"; L "#define GetSystemTick() (0u)"; L "#endif"; L "";
   L "// This macro guard is for the case when you want to build";
   L "// app with enabled optoin auto CSM, but don't yet have";
   L "// proper getframehash implementation"; L "";
   L "#ifndef GetFrameHash"; L "#define GetFrameHash(a,b,c,d,e) (0u)"; L "#endif"; nls 1;
   L extend_func_text].

(** Gen_MainSource, c-main-generator.cpp 331-433 *)
Definition main_source (g : gendesc) (coreh : string) (xs : list ciexpr) : res (list string) :=
  do ms <- map_res (msg_source g) xs;
  Ok (source_top g coreh ++ List.concat ms)%list.

(** ** Monitor files: /repo/src/codegen/mon-generator.cpp *)

(** FillHeader, mon-generator.cpp 6-83 *)
Definition fmon_header (g : gendesc) (xs : list ciexpr) : list string :=
  let names := map (fun x => g_name (x_msg x)) xs in
  ([n_cominfo g; n_drvinfo g; L "#pragma once"; nls 1; L cpp_open; nls 1; L "// DBC file version";
    L ("#define " ++ n_verhi g ++ "_FMON (" ++ pu (n_hi g) ++ "U)");
    L ("#define " ++ n_verlow g ++ "_FMON (" ++ pu (n_low g) ++ "U)"); nls 1;
    L ("#include " ++ dq ++ n_drv g ++ "-config.h" ++ dq); nls 1;
    L ("#ifdef " ++ n_usemon g); nls 1;
    L ("#include " ++ dq ++ "canmonitorutil.h" ++ dq);
    L ("/*" ++ nl
         ++ "This file contains the prototypes of all the functions that will be called" ++ nl
         ++ "from each Unpack_*name* function to detect DBC related errors" ++ nl
         ++ "It is the user responsibility to defined these functions in the" ++ nl
         ++ "separated .c file. If it won't be done the linkage error will happen" ++ nl ++ "*/");
    nls 1;
    L ("#ifdef " ++ n_DRV g ++ "_USE_MONO_FMON"); nls 1;
    L ("void _FMon_MONO_" ++ n_drv g ++ "(FrameMonitor_t* _mon, uint32_t msgid);"); nls 1]
     ++ map (fun nm => L ("#define FMon_" ++ nm ++ "_" ++ n_drv g ++ "(x, y) _FMon_MONO_" ++ n_drv g
                            ++ "((x), (y))")) names
     ++ [nls 1; L "#else"; nls 1]
     ++ map (fun nm => L ("void _FMon_" ++ nm ++ "_" ++ n_drv g
                            ++ "(FrameMonitor_t* _mon, uint32_t msgid);")) names
     ++ [nls 1]
     ++ map (fun nm => L ("#define FMon_" ++ nm ++ "_" ++ n_drv g ++ "(x, y) _FMon_" ++ nm ++ "_"
                            ++ n_drv g ++ "((x), (y))")) names
     ++ [nls 1; L "#endif"; nls 1; L ("#endif // " ++ n_usemon g); nls 1; L cpp_close])%list.

(** FillSource, mon-generator.cpp 85-126 *)
Definition fmon_source (g : gendesc) (fmonh : string) (xs : list ciexpr) : list string :=
  ([n_cominfo g; n_drvinfo g; L ("#include " ++ dq ++ fmonh ++ dq); nls 1;
    L ("#ifdef " ++ n_usemon g); nls 1;
    L ("/*" ++ nl ++ "Put the monitor function content here, keep in mind -" ++ nl
         ++ "next generation will completely clear all manually added code (!)" ++ nl
         ++ "*/" ++ nl ++ nl);
    L ("#ifdef " ++ n_DRV g ++ "_USE_MONO_FMON"); nls 1;
    L ("void _FMon_MONO_" ++ n_drv g ++ "(FrameMonitor_t* _mon, uint32_t msgid)"); L "{";
    L "  (void)_mon;"; L "  (void)msgid;"; L "}"; nls 1; L "#else"; nls 1]
     ++ map (fun x => L ("void _FMon_" ++ g_name (x_msg x) ++ "_" ++ n_drv g
                           ++ "(FrameMonitor_t* _mon, uint32_t msgid)" ++ nl ++ "{" ++ nl
                           ++ "  (void)_mon;" ++ nl ++ "  (void)msgid;" ++ nl ++ "}" ++ nl ++ nl)) xs
     ++ [L ("#endif // " ++ n_DRV g ++ "_USE_MONO_FMON"); nls 1; L ("#endif // " ++ n_usemon g)])%list.

(** ** Generate, c-main-generator.cpp 34-81: the files written, in order *)
Definition generate_main (srt : sorter) (d : dbclist) (s : settings)
  : res (list (string * string)) :=
  let g := st_g s in
  let f := st_f s in
  do xs0 <- load_messages (d_msgs d);
  let xs := srt ciexpr (fun x => g_id (x_msg x)) xs0 in
  do h <- main_header g (d_maxdlc d) xs;
  do c <- main_source g (f_coreh f) xs;
  Ok ([(f_coreh_path f, sconcat h); (f_corec_path f, sconcat c);
       (f_fmonh_path f, sconcat (fmon_header g xs))]
        ++ (if n_nofmon g then [] else [(f_fmonc_path f, sconcat (fmon_source g (f_fmonh f) xs))])
        ++ (if n_noconfig g then []
            else [((f_confdir f ++ "/" ++ n_drv g ++ "-config.h")%string, sconcat (config_text g));
                  ((f_confdir f ++ "/" ++ "dbccodeconf.h")%string, sconcat (dbccodeconf_text g))])
        ++ (if n_noinc g then []
            else [((f_incdir f ++ "/" ++ "canmonitorutil.h")%string, sconcat (canmonutil_text g))]))%list.
