(** A front end for the subset of C that the generator emits: lexer, expression parser,
    statement parser and line based preprocessor.  It is the reader's notion of "what the
    emitted text means"; nothing in this file depends on the generator.

    All phases are folds over their input (no fuel), so the meaning of a concatenation is
    the composition of the meanings of its parts. *)

From Coq Require Import ZArith NArith List String Ascii Bool.
From Verif Require Import Base.
Import ListNotations.
Open Scope string_scope.

(** ** Abstract syntax *)

(** Integer types of the data model (ILP32/LP64: int is 32 bits, long is 64 bits). *)
Inductive cty := I8 | I16 | I32 | I64 | U8 | U16 | U32 | U64.

Inductive binop :=
| OMul | ODiv | OMod | OAdd | OSub | OShl | OShr
| OLt | OGt | OLe | OGe | OEq | ONe
| OAnd | OXor | OOr | OLand | OLor
| OAsg | OOrAsg.

Inductive unop :=
| UNeg | UNot | UCpl | UDeref | UAddr
| UCast (ty : string).

Inductive expr :=
| EInt (t : cty) (z : Z)            (* integer constant with its C type *)
| EFlt (txt : string)               (* decimal floating constant, kept as text *)
| EId (x : string)
| EUn (u : unop) (e : expr)
| EBin (o : binop) (a b : expr)
| ECond (c a b : expr)
| EFld (arrow : bool) (e : expr) (f : string)
| EIdx (a i : expr)
| ECall (f : string) (args : list expr)
| EPost (e : expr).                 (* e++ *)

Inductive stmt :=
| SExpr (e : expr)
| SReturn (e : expr)
| SDecl (ty x : string) (init : option expr)
| SIf (c : expr) (s1 : stmt) (s2 : option stmt)
| SFor (a b c : expr) (body : stmt)
| SBlock (l : list stmt)
| SSkip.

(** ** Tokens *)

Inductive punct :=
| PLpar | PRpar | PLbr | PRbr | PLbrace | PRbrace | PSemi | PComma
| PQuest | PColon | PDot | PArrow | PInc | PNot | PTilde
| PBin (o : binop).

Inductive tok :=
| TId (x : string)
| TInt (t : cty) (z : Z)
| TFlt (txt : string)
| TP (p : punct)
| TBad.

(** digits in base 10 / 16; [None] on any other character *)
Fixpoint num_dec (acc : N) (s : string) : option N :=
  match s with
  | EmptyString => Some acc
  | String c r => if is_digit c then num_dec (10 * acc + digit_val c) r else None
  end.

Definition xdigit_val (c : ascii) : option N :=
  if is_digit c then Some (digit_val c)
  else if in_range "A" "F" c then Some (code c - 55)%N
  else if in_range "a" "f" c then Some (code c - 87)%N
  else None.

Fixpoint num_hex (acc : N) (s : string) : option N :=
  match s with
  | EmptyString => Some acc
  | String c r =>
      match xdigit_val c with
      | Some d => num_hex (16 * acc + d) r
      | None => None
      end
  end.

(** removes one u/U suffix; tells whether there was one *)
Fixpoint strip_u (s : string) : string * bool :=
  match s with
  | EmptyString => ("", false)
  | String c EmptyString =>
      if Ascii.eqb c "U" || Ascii.eqb c "u" then ("", true) else (String c "", false)
  | String c r => let '(r', b) := strip_u r in (String c r', b)
  end.

(** C11 6.4.4.1: type of an integer constant *)
Definition int_const (hex unsig : bool) (n : N) : tok :=
  let z := Z.of_N n in
  if unsig then
    if (z <? 2 ^ 32)%Z then TInt U32 z else if (z <? 2 ^ 64)%Z then TInt U64 z else TBad
  else
    if (z <? 2 ^ 31)%Z then TInt I32 z
    else if hex && (z <? 2 ^ 32)%Z then TInt U32 z
    else if (z <? 2 ^ 63)%Z then TInt I64 z
    else if hex && (z <? 2 ^ 64)%Z then TInt U64 z
    else TBad.

Fixpoint has_char (c : ascii) (s : string) : bool :=
  match s with
  | EmptyString => false
  | String d r => Ascii.eqb c d || has_char c r
  end.

(** decimal floating constant: digits . digits, at least one digit in all *)
Definition is_float_text (s : string) : bool :=
  all_chars (fun c => is_digit c || Ascii.eqb c ".") s &&
  existsb is_digit (list_ascii_of_string s) &&
  (List.length (filter (Ascii.eqb ".") (list_ascii_of_string s)) =? 1)%nat.

(** a number word; octal constants other than 0 are not used and are rejected *)
Definition num_word (w : string) : tok :=
  if has_char "." w then (if is_float_text w then TFlt w else TBad)
  else
    let '(body, u) := strip_u w in
    match body with
    | String "0" (String x r) =>
        if (Ascii.eqb x "x" || Ascii.eqb x "X") && negb (String.eqb r "") then
          match num_hex 0 r with Some n => int_const true u n | None => TBad end
        else TBad
    | EmptyString => TBad
    | _ => match num_dec 0 body with Some n => int_const false u n | None => TBad end
    end.

(** a maximal run of identifier characters and dots *)
Definition is_wordchar (c : ascii) : bool := is_idchar c.
Definition word (w : string) : tok :=
  match w with
  | EmptyString => TBad
  | String c _ => if is_digit c then num_word w else if is_ident w then TId w else TBad
  end.

Definition punct1 (c : ascii) : option punct :=
  if Ascii.eqb c "(" then Some PLpar else if Ascii.eqb c ")" then Some PRpar
  else if Ascii.eqb c "[" then Some PLbr else if Ascii.eqb c "]" then Some PRbr
  else if Ascii.eqb c "{" then Some PLbrace else if Ascii.eqb c "}" then Some PRbrace
  else if Ascii.eqb c ";" then Some PSemi else if Ascii.eqb c "," then Some PComma
  else if Ascii.eqb c "?" then Some PQuest else if Ascii.eqb c ":" then Some PColon
  else if Ascii.eqb c "." then Some PDot else if Ascii.eqb c "!" then Some PNot
  else if Ascii.eqb c "~" then Some PTilde
  else if Ascii.eqb c "*" then Some (PBin OMul) else if Ascii.eqb c "/" then Some (PBin ODiv)
  else if Ascii.eqb c "%" then Some (PBin OMod) else if Ascii.eqb c "+" then Some (PBin OAdd)
  else if Ascii.eqb c "-" then Some (PBin OSub) else if Ascii.eqb c "<" then Some (PBin OLt)
  else if Ascii.eqb c ">" then Some (PBin OGt) else if Ascii.eqb c "&" then Some (PBin OAnd)
  else if Ascii.eqb c "^" then Some (PBin OXor) else if Ascii.eqb c "|" then Some (PBin OOr)
  else if Ascii.eqb c "=" then Some (PBin OAsg)
  else None.

Definition punct2 (c d : ascii) : option punct :=
  if Ascii.eqb c "-" && Ascii.eqb d ">" then Some PArrow
  else if Ascii.eqb c "+" && Ascii.eqb d "+" then Some PInc
  else if Ascii.eqb c "<" && Ascii.eqb d "<" then Some (PBin OShl)
  else if Ascii.eqb c ">" && Ascii.eqb d ">" then Some (PBin OShr)
  else if Ascii.eqb c "<" && Ascii.eqb d "=" then Some (PBin OLe)
  else if Ascii.eqb c ">" && Ascii.eqb d "=" then Some (PBin OGe)
  else if Ascii.eqb c "=" && Ascii.eqb d "=" then Some (PBin OEq)
  else if Ascii.eqb c "!" && Ascii.eqb d "=" then Some (PBin ONe)
  else if Ascii.eqb c "&" && Ascii.eqb d "&" then Some (PBin OLand)
  else if Ascii.eqb c "|" && Ascii.eqb d "|" then Some (PBin OLor)
  else if Ascii.eqb c "|" && Ascii.eqb d "=" then Some (PBin OOrAsg)
  else None.

(** lexer state: nothing pending, a reversed word (the flag tells a number), a pending
    punctuation character, inside a // comment *)
Inductive lstate :=
| LIdle
| LWord (num : bool) (rw : string)
| LPunct (c : ascii)
| LComment.

Definition is_blank (c : ascii) : bool :=
  Ascii.eqb c " " || (code c =? 9)%N || (code c =? 10)%N || (code c =? 13)%N.

(** start of a token *)
Definition lstart (c : ascii) : list tok * lstate :=
  if is_idchar c then ([], LWord (is_digit c) (String c ""))
  else if is_blank c then ([], LIdle)
  else match punct1 c with
       | Some _ => ([], LPunct c)
       | None => ([TBad], LIdle)
       end.

Definition lstep (s : lstate) (c : ascii) : list tok * lstate :=
  match s with
  | LIdle => lstart c
  | LWord num rw =>
      if is_idchar c || (num && Ascii.eqb c ".") then ([], LWord num (String c rw))
      else let '(l, s') := lstart c in (word (rev_string rw) :: l, s')
  | LPunct p =>
      if Ascii.eqb p "/" && Ascii.eqb c "/" then ([], LComment)
      else match punct2 p c with
           | Some q => ([TP q], LIdle)
           | None =>
               let '(l, s') := lstart c in
               (match punct1 p with Some q => TP q | None => TBad end :: l, s')
           end
  | LComment => if (code c =? 10)%N then ([], LIdle) else ([], LComment)
  end.

Definition lflush (s : lstate) : list tok :=
  match s with
  | LIdle | LComment => []
  | LWord _ rw => [word (rev_string rw)]
  | LPunct p => [match punct1 p with Some q => TP q | None => TBad end]
  end.

Fixpoint lex_from (s : lstate) (t : string) : list tok :=
  match t with
  | EmptyString => lflush s
  | String c r => let '(l, s') := lstep s c in l ++ lex_from s' r
  end.

Definition lex (t : string) : list tok := lex_from LIdle t.

(** ** Expression parser: operator precedence with an explicit stack *)

Definition typenames : list string :=
  ["int8_t"; "int16_t"; "int32_t"; "int64_t"; "uint8_t"; "uint16_t"; "uint32_t"; "uint64_t";
   "bitext_t"; "ubitext_t"; "sigfloat_t"; "void"].
Definition is_typename (s : string) : bool := smem s typenames.

Inductive eframe :=
| FBin (o : binop) (l : expr)
| FUn (u : unop)
| FParen
| FIdx (a : expr)
| FCall (f : string) (rargs : list expr)
| FThen (c : expr)                  (* c ?        *)
| FElse (c a : expr).               (* c ? a :    *)

Inductive emode :=
| Need
| Have (e : expr)
| InCast (ty : string)
| Fld (arrow : bool) (e : expr).

Definition estate : Type := list eframe * emode.

(** binding strength, C11 6.5 *)
Definition prec (o : binop) : nat :=
  match o with
  | OMul | ODiv | OMod => 13
  | OAdd | OSub => 12
  | OShl | OShr => 11
  | OLt | OGt | OLe | OGe => 10
  | OEq | ONe => 9
  | OAnd => 8 | OXor => 7 | OOr => 6 | OLand => 5 | OLor => 4
  | OAsg | OOrAsg => 2
  end.

(** applies all pending operators that bind at least as strongly as [p] *)
Fixpoint reduce (p : nat) (e : expr) (k : list eframe) : expr * list eframe :=
  match k with
  | FUn u :: k' => reduce p (EUn u e) k'
  | FBin o l :: k' => if (p <=? prec o)%nat then reduce p (EBin o l e) k' else (e, k)
  | FElse c a :: k' => if (p <=? 3)%nat then reduce p (ECond c a e) k' else (e, k)
  | _ => (e, k)
  end.

(** assignment operators associate to the right, all others to the left *)
Definition rprec (o : binop) : nat :=
  match o with OAsg | OOrAsg => 3 | _ => prec o end.

Definition estep (s : estate) (t : tok) : option estate :=
  let '(k, m) := s in
  match m with
  | Need =>
      match t with
      | TInt ty z => Some (k, Have (EInt ty z))
      | TFlt f => Some (k, Have (EFlt f))
      | TId x =>
          if is_typename x then
            match k with FParen :: _ => Some (k, InCast x) | _ => None end
          else Some (k, Have (EId x))
      | TP PLpar => Some (FParen :: k, Need)
      | TP (PBin OSub) => Some (FUn UNeg :: k, Need)
      | TP (PBin OMul) => Some (FUn UDeref :: k, Need)
      | TP (PBin OAnd) => Some (FUn UAddr :: k, Need)
      | TP PNot => Some (FUn UNot :: k, Need)
      | TP PTilde => Some (FUn UCpl :: k, Need)
      | TP PRpar =>
          match k with FCall f [] :: k' => Some (k', Have (ECall f [])) | _ => None end
      | _ => None
      end
  | InCast ty =>
      match t, k with
      | TP PRpar, FParen :: k' => Some (FUn (UCast ty) :: k', Need)
      | _, _ => None
      end
  | Fld ar e =>
      match t with
      | TId f => Some (k, Have (EFld ar e f))
      | _ => None
      end
  | Have e =>
      match t with
      | TP PArrow => Some (k, Fld true e)
      | TP PDot => Some (k, Fld false e)
      | TP PLbr => Some (FIdx e :: k, Need)
      | TP PLpar => match e with EId f => Some (FCall f [] :: k, Need) | _ => None end
      | TP PInc => Some (k, Have (EPost e))
      | TP PRpar =>
          match reduce 0 e k with
          | (e', FParen :: k') => Some (k', Have e')
          | (e', FCall f args :: k') => Some (k', Have (ECall f (rev (e' :: args))))
          | _ => None
          end
      | TP PRbr =>
          match reduce 0 e k with
          | (e', FIdx a :: k') => Some (k', Have (EIdx a e'))
          | _ => None
          end
      | TP PComma =>
          match reduce 0 e k with
          | (e', FCall f args :: k') => Some (FCall f (e' :: args) :: k', Need)
          | _ => None
          end
      | TP PQuest => let '(e', k') := reduce 4 e k in Some (FThen e' :: k', Need)
      | TP PColon =>
          match reduce 0 e k with
          | (e', FThen c :: k') => Some (FElse c e' :: k', Need)
          | _ => None
          end
      | TP (PBin o) => let '(e', k') := reduce (rprec o) e k in Some (FBin o e' :: k', Need)
      | _ => None
      end
  end.

Fixpoint erun (s : estate) (l : list tok) : option estate :=
  match l with
  | [] => Some s
  | t :: r => match estep s t with Some s' => erun s' r | None => None end
  end.

Definition efinish (s : estate) : option expr :=
  match s with
  | (k, Have e) => match reduce 0 e k with (e', []) => Some e' | _ => None end
  | _ => None
  end.

(** parses a complete expression *)
Definition parse_expr_toks (l : list tok) : option expr :=
  match erun ([], Need) l with Some s => efinish s | None => None end.
Definition parse_expr (t : string) : option expr := parse_expr_toks (lex t).

(** ** Statement parser *)

Inductive kframe :=
| KBlock (rs : list stmt)                (* { statements so far, reversed *)
| KIf (c : expr)                         (* if (c)        *)
| KElse (c : expr) (s1 : stmt)           (* if (c) s1 else *)
| KFor (a b c : expr).                   (* for (a; b; c) *)

(** what to do with the expression being read *)
Inductive ekind :=
| XStmt | XReturn | XDecl (ty x : string) | XIf
| XFor1 | XFor2 (a : expr) | XFor3 (a b : expr).

Inductive smode :=
| MStmt
| MDecl (ty : string) (x : option string)
| MIfOpen | MForOpen                     (* after the keyword, before the parenthesis *)
| MExpr (kind : ekind) (s : estate)
| MIfDone (c : expr) (s1 : stmt).        (* if (c) s1, an else may follow *)

Definition sstate : Type := list kframe * smode.

(** a statement is complete *)
Fixpoint complete (s : stmt) (k : list kframe) : option sstate :=
  match k with
  | KBlock rs :: k' => Some (KBlock (s :: rs) :: k', MStmt)
  | KIf c :: k' => Some (k', MIfDone c s)
  | KElse c s1 :: k' => complete (SIf c s1 (Some s)) k'
  | KFor a b c :: k' => complete (SFor a b c s) k'
  | [] => None
  end.

(** no else follows: closes the pending if, and any enclosing unbraced if *)
Fixpoint flush_if (s : stmt) (k : list kframe) : option (list kframe) :=
  match k with
  | KBlock rs :: k' => Some (KBlock (s :: rs) :: k')
  | KIf c :: k' => flush_if (SIf c s None) k'
  | KElse c s1 :: k' => flush_if (SIf c s1 (Some s)) k'
  | KFor a b c :: k' => flush_if (SFor a b c s) k'
  | [] => None
  end.

(** first token of a statement *)
Definition sstart (k : list kframe) (t : tok) : option sstate :=
  match t with
  | TP PSemi => complete SSkip k
  | TP PLbrace => Some (KBlock [] :: k, MStmt)
  | TP PRbrace =>
      match k with KBlock rs :: k' => complete (SBlock (rev rs)) k' | _ => None end
  | TId x =>
      if String.eqb x "return" then Some (k, MExpr XReturn ([], Need))
      else if String.eqb x "if" then Some (k, MIfOpen)
      else if String.eqb x "for" then Some (k, MForOpen)
      else if is_typename x then Some (k, MDecl x None)
      else match estep ([], Need) t with Some es => Some (k, MExpr XStmt es) | None => None end
  | _ => match estep ([], Need) t with Some es => Some (k, MExpr XStmt es) | None => None end
  end.

Definition sstep (s : sstate) (t : tok) : option sstate :=
  let '(k, m) := s in
  match m with
  | MStmt => sstart k t
  | MIfDone c s1 =>
      match t with
      | TId x =>
          if String.eqb x "else" then Some (KElse c s1 :: k, MStmt)
          else match flush_if (SIf c s1 None) k with Some k' => sstart k' t | None => None end
      | _ => match flush_if (SIf c s1 None) k with Some k' => sstart k' t | None => None end
      end
  | MDecl ty None =>
      match t with
      | TId x => if String.eqb x "const" then Some s else Some (k, MDecl ty (Some x))
      | _ => None
      end
  | MDecl ty (Some x) =>
      match t with
      | TP PSemi => complete (SDecl ty x None) k
      | TP (PBin OAsg) => Some (k, MExpr (XDecl ty x) ([], Need))
      | _ => None
      end
  | MIfOpen => match t with TP PLpar => Some (k, MExpr XIf ([FParen], Need)) | _ => None end
  | MForOpen => match t with TP PLpar => Some (k, MExpr XFor1 ([], Need)) | _ => None end
  | MExpr kind es =>
      match t with
      | TP PSemi =>
          match efinish es with
          | None => None
          | Some e =>
              match kind with
              | XStmt => complete (SExpr e) k
              | XReturn => complete (SReturn e) k
              | XDecl ty x => complete (SDecl ty x (Some e)) k
              | XFor1 => Some (k, MExpr (XFor2 e) ([], Need))
              | XFor2 a => Some (k, MExpr (XFor3 a e) ([FParen], Need))
              | _ => None
              end
          end
      | _ =>
          match estep es t with
          | None => None
          | Some ([], Have e) =>
              match kind with
              | XIf => Some (KIf e :: k, MStmt)
              | XFor3 a b => Some (KFor a b e :: k, MStmt)
              | _ => Some (k, MExpr kind ([], Have e))
              end
          | Some es' => Some (k, MExpr kind es')
          end
      end
  end.

Fixpoint srun (s : sstate) (l : list tok) : option sstate :=
  match l with
  | [] => Some s
  | t :: r => match sstep s t with Some s' => srun s' r | None => None end
  end.

(** parses a list of statements *)
Definition parse_stmts (l : list tok) : option (list stmt) :=
  match srun ([KBlock []], MStmt) l with
  | Some ([KBlock rs], MStmt) => Some (rev rs)
  | Some (k, MIfDone c s1) =>
      match flush_if (SIf c s1 None) k with Some [KBlock rs] => Some (rev rs) | _ => None end
  | _ => None
  end.

(** ** Preprocessor, line by line *)

(** splits a text at line feeds; a final line without line feed counts when non-empty *)
Fixpoint lines_aux (racc : string) (t : string) : list string :=
  match t with
  | EmptyString => match racc with EmptyString => [] | _ => [rev_string racc] end
  | String c r =>
      if Ascii.eqb c NL then rev_string racc :: lines_aux "" r else lines_aux (String c racc) r
  end.
Definition lines (t : string) : list string := lines_aux "" t.

(** macro: parameters ([None] for object-like macros) and replacement tokens *)
Record macro := { m_params : option (list string); m_body : list tok }.

Record ppstate := {
  pp_macros : list (string * macro);     (* latest definition first *)
  pp_stack : list bool;                  (* open conditionals, innermost first *)
  pp_out : list string                   (* active lines, reversed *)
}.

Fixpoint lookup {A} (x : string) (l : list (string * A)) : option A :=
  match l with
  | [] => None
  | (y, a) :: r => if String.eqb x y then Some a else lookup x r
  end.

Definition defined (x : string) (l : list (string * macro)) : bool :=
  match lookup x l with Some _ => true | None => false end.

Fixpoint span (p : ascii -> bool) (s : string) : string * string :=
  match s with
  | EmptyString => ("", "")
  | String c r =>
      if p c then let '(a, b) := span p r in (String c a, b) else ("", s)
  end.

Definition skip_blanks (s : string) : string := snd (span is_blank s).

(** directive name and the rest of the line *)
Definition directive (l : string) : option (string * string) :=
  match l with
  | String "#" r => let '(d, rest) := span is_idchar (skip_blanks r) in Some (d, skip_blanks rest)
  | _ => None
  end.

Definition pp_name (rest : string) : string := fst (span is_idchar rest).

(** parameter list of a function-like macro: "a,b,c)" up to the closing parenthesis *)
Definition pp_params (s : string) : list string * string :=
  let '(ps, rest) := span (fun c => negb (Ascii.eqb c ")")) s in
  (fold_right (fun t acc => match t with TId x => x :: acc | _ => acc end) [] (lex ps),
   match rest with String _ r => r | EmptyString => "" end).

Definition pp_define (rest : string) : string * macro :=
  let '(name, tail) := span is_idchar rest in
  match tail with
  | String "(" r =>
      let '(ps, body) := pp_params r in (name, {| m_params := Some ps; m_body := lex body |})
  | _ => (name, {| m_params := None; m_body := lex tail |})
  end.

Definition pp_active (st : ppstate) : bool := forallb id (pp_stack st).

Definition pp_push (b : bool) (st : ppstate) : ppstate :=
  {| pp_macros := pp_macros st; pp_stack := b :: pp_stack st; pp_out := pp_out st |}.

(** #if conditions, #include, #error and #pragma are not interpreted here: an active #if
    counts as true only for the version guards, which are treated separately. *)
Definition pp_line (st : ppstate) (l : string) : ppstate :=
  match directive l with
  | None =>
      if pp_active st
      then {| pp_macros := pp_macros st; pp_stack := pp_stack st; pp_out := l :: pp_out st |}
      else st
  | Some (d, rest) =>
      if String.eqb d "ifdef" then pp_push (defined (pp_name rest) (pp_macros st)) st
      else if String.eqb d "ifndef" then pp_push (negb (defined (pp_name rest) (pp_macros st))) st
      else if String.eqb d "else" then
        match pp_stack st with
        | b :: k => {| pp_macros := pp_macros st; pp_stack := negb b :: k; pp_out := pp_out st |}
        | [] => st
        end
      else if String.eqb d "endif" then
        {| pp_macros := pp_macros st; pp_stack := tl (pp_stack st); pp_out := pp_out st |}
      else if String.eqb d "define" then
        if pp_active st
        then {| pp_macros := pp_define rest :: pp_macros st;
                pp_stack := pp_stack st; pp_out := pp_out st |}
        else st
      else if String.eqb d "if" then pp_push false st
      else st
  end.

Definition pp_run (macros : list (string * macro)) (ls : list string) : ppstate :=
  fold_left pp_line ls {| pp_macros := macros; pp_stack := []; pp_out := [] |}.

(** the active lines, in order *)
Definition pp_lines (macros : list (string * macro)) (ls : list string) : list string :=
  rev (pp_out (pp_run macros ls)).

(** tokens of a piece of source text under a set of macro definitions *)
Definition source_toks (macros : list (string * macro)) (t : string) : list tok :=
  List.concat (map lex (pp_lines macros (lines t))).
