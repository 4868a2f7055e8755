(** Model of /repo/src/codegen/c-sigprinter.cpp *)

From Coq Require Import ZArith NArith List String Ascii Bool.
From Coq Require Import Floats.SpecFloat.
From Verif Require Import Base Dbl CSyntax Types Formatter.
Import ListNotations.
Open Scope Z_scope.

(** conf-and-limits.h 6, 9.  The second macro is not parenthesised, [(64u * 8u) - 1u]; in its two
    uses (comparison, assignment) this makes no difference. *)
Definition max_dlc : Z := 64.
Definition highest_bit : Z := 64 * 8 - 1.

(** the text put in place of an expression, c-sigprinter.cpp 188, 205, 258 *)
Definition dlc_error_text : string :=
  "Error in DBC file !!!! Dlc of this message must be greater."%string.

(** snprintf into workbuff, c-sigprinter.cpp 8-9 *)
Definition wb (s : string) : string := cut 2048 s.

(** msk, c-sigprinter.cpp 12.  The index is between 0 and 8 in every use. *)
Definition msk (n : Z) : string :=
  nth (Z.to_nat n)
    ["0"; "0x01U"; "0x03U"; "0x07U"; "0x0FU"; "0x1FU"; "0x3FU"; "0x7FU"; "0xFFU"]%string ""%string.

(** ShiftByte, c-sigprinter.cpp 14-17, including the conversions uint32_t -> int32_t -> uint32_t *)
Definition shift_byte (sg : signal) (bn : Z) : Z :=
  uwrap 32 (match s_order sg with
            | Intel => swrap 32 bn - 1
            | Motorola => swrap 32 bn + 1
            end).

(** AppendToByteLine, c-sigprinter.cpp 305-317 *)
Definition append_to_byte_line (e str : string) : string :=
  (match e with EmptyString => str | _ => e ++ " | " ++ str end)%string.

Definition set_nth {A} (l : list A) (n : nat) (a : A) : list A :=
  (firstn n l ++ a :: skipn (S n) l)%list.

(** AppendToByteLine(to_bytes[bn], str): the vector is indexed without a check *)
Definition add_byte (tb : list string) (bn : Z) (str : string) : res (list string) :=
  if (bn <? 0) then UB "to_bytes index"
  else match nth_error tb (Z.to_nat bn) with
       | Some e => Ok (set_nth tb (Z.to_nat bn) (append_to_byte_line e str))
       | None => UB "to_bytes index"
       end.

(** %d applied to a uint32_t *)
Definition pd32 (z : Z) : string := decZ (swrap 32 z).

(** startb, c-sigprinter.cpp 191-197 *)
Definition start_bit_pos (sg : signal) : Z :=
  let raw := match s_order sg with
             | Intel => uwrap 32 (s_start sg + (s_len sg - 1))
             | Motorola => s_start sg
             end in
  let startb := uwrap 16 raw in
  if highest_bit <? startb then highest_bit else startb.

Inductive loop_result :=
| LoopDone (slen bn : Z) (acc : string) (tb : list string)
| LoopErr (tb : list string).

(** the while loop, c-sigprinter.cpp 246-286.  [fuel]: slen is below 256 and drops by 8. *)
Fixpoint chunk_loop (fuel : nat) (sg : signal) (slen bn : Z) (acc : string) (tb : list string)
  : res loop_result :=
  match fuel with
  | O => UB "fuel"
  | S f =>
      if (slen - 8 >=? 0) then
        let slen := slen - 8 in
        let bn := shift_byte sg bn in
        if (Z.of_nat (List.length tb) <? bn) then Ok (LoopErr (set_nth tb 0 dlc_error_text))
        else
          let acc := (acc ++ " | ")%string in
          if (slen =? 0) then
            let acc := (acc ++ wb ("(_d[" ++ pd32 bn ++ "] & (" ++ msk 8 ++ "))"))%string in
            do tb <- add_byte tb bn (wb ("(_m->" ++ s_name sg ++ " & (" ++ msk 8 ++ "))"))%string;
            chunk_loop f sg slen bn acc tb
          else
            let t64 := (if (slen >? 31) then "(uint64_t)" else "")%string in
            let acc := (acc ++ wb ("(" ++ t64 ++ "(_d[" ++ pd32 bn ++ "] & (" ++ msk 8 ++ ")) << "
                                      ++ decZ slen ++ "U)"))%string in
            do tb <- add_byte tb bn (wb ("((_m->" ++ s_name sg ++ " >> " ++ decZ slen ++ "U) & ("
                                            ++ msk 8 ++ "))"))%string;
            chunk_loop f sg slen bn acc tb
      else Ok (LoopDone slen bn acc tb)
  end.

(** PrintSignalExpr, c-sigprinter.cpp 180-303: the unpack expression and the updated per-byte
    pack expressions *)
Definition print_signal_expr (sg : signal) (tb : list string) : res (string * list string) :=
  match tb with
  | [] => Ok (dlc_error_text, tb)
  | _ =>
    let startb := start_bit_pos sg in
    let bn := startb / 8 in
    if (Z.of_nat (List.length tb) <=? bn) then Ok (dlc_error_text, set_nth tb 0 dlc_error_text)
    else
      let bbc := startb mod 8 + 1 in
      let slen := s_len sg in
      let nm := s_name sg in
      if (bbc >? slen) then
        let e := wb ("((_d[" ++ pd32 bn ++ "] >> " ++ decZ (bbc - slen) ++ "U) & ("
                        ++ msk slen ++ "))")%string in
        do tb <- add_byte tb bn (wb ("((_m->" ++ nm ++ " & (" ++ msk slen ++ ")) << "
                                        ++ decZ (bbc - slen) ++ "U)"))%string;
        Ok (e, tb)
      else if (bbc =? slen) then
        let e := wb ("(_d[" ++ pd32 bn ++ "] & (" ++ msk slen ++ "))")%string in
        do tb <- add_byte tb bn (wb ("(_m->" ++ nm ++ " & (" ++ msk slen ++ "))"))%string;
        Ok (e, tb)
      else
        let slen := slen - bbc in
        let t64 := (if (slen >? 31) then "(uint64_t)" else "")%string in
        let acc := wb ("(" ++ t64 ++ "(_d[" ++ pd32 bn ++ "] & (" ++ msk bbc ++ ")) << "
                          ++ decZ slen ++ "U)")%string in
        do tb <- add_byte tb bn (wb ("((_m->" ++ nm ++ " >> " ++ decZ slen ++ "U) & ("
                                        ++ msk bbc ++ "))"))%string;
        do r <- chunk_loop 40 sg slen bn acc tb;
        match r with
        | LoopErr tb => Ok (dlc_error_text, tb)
        | LoopDone slen bn acc tb =>
            if (slen >? 0) then
              let bn := shift_byte sg bn in
              let acc := (acc ++ wb (" | ((_d[" ++ pd32 bn ++ "] >> " ++ decZ (8 - slen) ++ "U) & ("
                                        ++ msk slen ++ "))"))%string in
              do tb <- add_byte tb bn (wb ("((_m->" ++ nm ++ " & (" ++ msk slen ++ ")) << "
                                              ++ decZ (8 - slen) ++ "U)"))%string;
              Ok (acc, tb)
            else Ok (acc, tb)
        end
  end.

(** the loop over the signals in BuildCConvertExprs, c-sigprinter.cpp 139-158 *)
Fixpoint build_exprs (sgs : list signal) (tb : list string) : res (list string * list string) :=
  match sgs with
  | [] => Ok ([], tb)
  | sg :: r =>
      do etb <- print_signal_expr sg tb;
      let '(e, tb) := etb in
      do rest <- build_exprs r tb;
      let '(es, tb) := rest in
      Ok (e :: es, tb)
  end.

(** first non-empty entry, c-sigprinter.cpp 166-174 *)
Fixpoint first_nonempty (i : Z) (v : list string) : option (string * Z) :=
  match v with
  | [] => None
  | EmptyString :: r => first_nonempty (i + 1) r
  | s :: _ => Some (s, i)
  end.

(** BuildCConvertExprs, c-sigprinter.cpp 126-178, and LoadMessage 39-52 *)
Definition load_message (m : message) : res ciexpr :=
  do est <- build_exprs (g_sigs m) (repeat ""%string (Z.to_nat (g_dlc m)));
  let '(es, tb) := est in
  match csm_sig m with
  | None => Ok {| x_msg := m; x_tosig := es; x_tobytes := tb; x_csmexpr := ""; x_csmbyte := 0 |}
  | Some sg =>
      do ev <- print_signal_expr sg (repeat ""%string 8);
      let '(s, i) := match first_nonempty 0 (snd ev) with
                     | Some p => p
                     | None => (""%string, 0)
                     end in
      Ok {| x_msg := m; x_tosig := es; x_tobytes := tb; x_csmexpr := s; x_csmbyte := i |}
  end.

(** LoadMessages, c-sigprinter.cpp 29-37 *)
Fixpoint load_messages (l : list message) : res (list ciexpr) :=
  match l with
  | [] => Ok []
  | m :: r => do x <- load_message m; do xs <- load_messages r; Ok (x :: xs)
  end.

(** cast of a double to int32_t (also to int); undefined when the truncated value does not fit *)
Definition cast_i32 (d : dbl) : res Z :=
  match dtrunc d with
  | Some z => if (- 2 ^ 31 <=? z) && (z <? 2 ^ 31) then Ok z else UB "double to int32_t"
  | None => UB "double to int32_t"
  end.

(** PrintPhysicalToRaw, c-sigprinter.cpp 54-124 *)
Definition print_physical_to_raw (sg : signal) (drvname : string) : res string :=
  let nm := s_name sg in
  let pf := prt_double (s_factor sg) 9 in
  let po := prt_double (s_offset sg) 9 in
  let ty := print_type (s_typero sg) in
  let head := str_print ("// signal: @" ++ nm ++ nl) in
  let def_to := str_print ("#define " ++ drvname ++ "_" ++ nm ++ "_toS(x) ( (" ++ ty ++ ") ") in
  let def_from := str_print ("#define " ++ drvname ++ "_" ++ nm ++ "_fromS(x) ( ") in
  if s_double sg then
    Ok (head
          ++ str_print ("#define " ++ drvname ++ "_" ++ nm ++ "_CovFactor (" ++ pf ++ ")" ++ nl)
          ++ def_to ++ str_print ("(((x) - (" ++ po ++ ")) / (" ++ pf ++ ")) )" ++ nl)
          ++ def_from ++ str_print ("(((x) * (" ++ pf ++ ")) + (" ++ po ++ ")) )" ++ nl))%string
  else
    do fac <- cast_i32 (s_factor sg);
    let cov := str_print ("#define " ++ drvname ++ "_" ++ nm ++ "_CovFactor (" ++ decZ fac ++ ")"
                            ++ nl) in
    if deqb (s_offset sg) (S754_zero false) then
      Ok (head ++ cov
            ++ def_to ++ str_print ("((x) / (" ++ decZ fac ++ ")) )" ++ nl)
            ++ def_from ++ str_print ("((x) * (" ++ decZ fac ++ ")) )" ++ nl))%string
    else
      do off <- cast_i32 (s_offset sg);
      if deqb (s_factor sg) (dbl_of_Z 1) then
        Ok (head ++ cov
              ++ def_to ++ str_print ("((x) - (" ++ decZ off ++ ")) )" ++ nl)
              ++ def_from ++ str_print ("((x) + (" ++ decZ off ++ ")) )" ++ nl))%string
      else
        Ok (head ++ cov
              ++ def_to ++ str_print ("(((x) - (" ++ decZ off ++ ")) / (" ++ decZ fac ++ ")) )"
                                        ++ nl)
              ++ def_from ++ str_print ("(((x) * (" ++ decZ fac ++ ")) + (" ++ decZ off ++ ")) )"
                                          ++ nl))%string.
