(** Meaning of the C subset: integer types with promotions and the usual arithmetic
    conversions, undefined behaviour as a distinct outcome, binary64 floating point.

    Implementation-defined choices, as made by GCC and Clang: conversion to a signed type
    is modulo 2^N, right shift of a negative number is arithmetic, plain bit-fields have the
    signedness of their declared type, sigfloat_t is double.

    Simplification: macros are expanded during evaluation instead of before parsing.  For
    macro bodies and arguments that are parenthesised, as all emitted ones are, the result is
    the same; a macro whose name collides with a struct member is not detected. *)

From Coq Require Import ZArith NArith List String Ascii Bool.
From Coq Require Import Floats.SpecFloat.
From Verif Require Import Base Dbl CSyntax.
Import ListNotations.
Open Scope Z_scope.

Definition width (t : cty) : Z :=
  match t with
  | I8 | U8 => 8 | I16 | U16 => 16 | I32 | U32 => 32 | I64 | U64 => 64
  end.
Definition is_signed (t : cty) : bool :=
  match t with I8 | I16 | I32 | I64 => true | _ => false end.
Definition ty_min (t : cty) : Z := if is_signed t then - 2 ^ (width t - 1) else 0.
Definition ty_max (t : cty) : Z := if is_signed t then 2 ^ (width t - 1) - 1 else 2 ^ width t - 1.
Definition fits (t : cty) (z : Z) : bool := (ty_min t <=? z) && (z <=? ty_max t).
(** conversion to an integer type *)
Definition conv (t : cty) (z : Z) : Z :=
  if is_signed t then swrap (width t) z else uwrap (width t) z.

(** C11 6.3.1.1 *)
Definition promote (t : cty) : cty :=
  match t with I8 | I16 | U8 | U16 => I32 | _ => t end.
(** C11 6.3.1.8 *)
Definition usual (a b : cty) : cty :=
  match promote a, promote b with
  | U64, _ | _, U64 => U64
  | I64, _ | _, I64 => I64
  | U32, _ | _, U32 => U32
  | _, _ => I32
  end.

Inductive cval := VI (t : cty) (z : Z) | VD (d : dbl).

Definition vbool (b : bool) : cval := VI I32 (if b then 1 else 0).

(** result of an arithmetic operator in type [t]: wraps when unsigned, undefined on
    overflow when signed *)
Definition arith (t : cty) (z : Z) : res cval :=
  if is_signed t then if fits t z then Ok (VI t z) else UB "signed overflow"
  else Ok (VI t (conv t z)).

Definition shift_op (left : bool) (t : cty) (a : Z) (n : Z) : res cval :=
  let t := promote t in
  if (n <? 0) || (width t <=? n) then UB "shift count"
  else if left then
    if is_signed t then
      if (a <? 0) || negb (fits t (Z.shiftl a n)) then UB "left shift of signed value"
      else Ok (VI t (Z.shiftl a n))
    else Ok (VI t (conv t (Z.shiftl a n)))
  else Ok (VI t (Z.shiftr a n)).

Definition int_op (o : binop) (ta : cty) (a : Z) (tb : cty) (b : Z) : res cval :=
  let t := usual ta tb in
  let a' := conv t a in
  let b' := conv t b in
  match o with
  | OMul => arith t (a' * b')
  | OAdd => arith t (a' + b')
  | OSub => arith t (a' - b')
  | ODiv => if b' =? 0 then UB "division by zero" else arith t (Z.quot a' b')
  | OMod => if b' =? 0 then UB "division by zero"
            else if fits t (Z.quot a' b') then Ok (VI t (Z.rem a' b')) else UB "signed overflow"
  | OShl => shift_op true ta a b
  | OShr => shift_op false ta a b
  | OLt => Ok (vbool (a' <? b'))
  | OGt => Ok (vbool (b' <? a'))
  | OLe => Ok (vbool (a' <=? b'))
  | OGe => Ok (vbool (b' <=? a'))
  | OEq => Ok (vbool (a' =? b'))
  | ONe => Ok (vbool (negb (a' =? b')))
  | OAnd => Ok (VI t (Z.land a' b'))
  | OXor => Ok (VI t (Z.lxor a' b'))
  | OOr => Ok (VI t (Z.lor a' b'))
  | _ => UB "not a value operator"
  end.

Definition dbl_op (o : binop) (a b : dbl) : res cval :=
  match o with
  | OMul => Ok (VD (dmul a b))
  | ODiv => Ok (VD (ddiv a b))
  | OAdd => Ok (VD (dadd a b))
  | OSub => Ok (VD (dsub a b))
  | OLt => Ok (vbool (dltb a b))
  | OGt => Ok (vbool (dltb b a))
  | OLe => Ok (vbool (dltb a b || deqb a b))
  | OGe => Ok (vbool (dltb b a || deqb a b))
  | OEq => Ok (vbool (deqb a b))
  | ONe => Ok (vbool (negb (deqb a b)))
  | _ => UB "operator needs integers"
  end.

Definition to_dbl (v : cval) : dbl :=
  match v with VI _ z => dbl_of_Z z | VD d => d end.

Definition bin_val (o : binop) (a b : cval) : res cval :=
  match a, b with
  | VI ta x, VI tb y => int_op o ta x tb y
  | _, _ => dbl_op o (to_dbl a) (to_dbl b)
  end.

Definition truth (v : cval) : bool :=
  match v with
  | VI _ z => negb (z =? 0)
  | VD d => negb (deqb d (S754_zero false))
  end.

(** types of objects: integer, bit-field of some width, floating *)
Inductive lty := LInt (t : cty) | LBits (t : cty) (w : Z) | LDbl | LVoid.

(** C11 6.3.1: conversion of a value on assignment or cast *)
Definition to_int (t : cty) (v : cval) : res Z :=
  match v with
  | VI _ z => Ok (conv t z)
  | VD d =>
      match dtrunc d with
      | Some z => if fits t z then Ok z else UB "floating value out of range"
      | None => UB "floating value out of range"
      end
  end.

(** the value stored in an object of the type *)
Definition to_obj (l : lty) (v : cval) : res cval :=
  match l with
  | LInt t => do z <- to_int t v; Ok (VI t z)
  | LBits t w =>
      do z <- to_int t v;
      Ok (VI (if is_signed t || (w <? 32) then I32 else t)
             (if is_signed t then swrap w z else uwrap w z))
  | LDbl => Ok (VD (to_dbl v))
  | LVoid => UB "object of type void"
  end.

Definition un_val (u : unop) (v : cval) : res cval :=
  match u, v with
  | UNeg, VI t z => arith (promote t) (- conv (promote t) z)
  | UNeg, VD d => Ok (VD (SFopp d))
  | UNot, _ => Ok (vbool (negb (truth v)))
  | UCpl, VI t z => Ok (VI (promote t) (conv (promote t) (Z.lnot z)))
  | _, _ => UB "not a value operator"
  end.

(** ** Objects *)

Record mem := {
  m_scal : string -> option (lty * cval);     (* scalar objects by access path *)
  m_arr : string -> option (list Z)           (* arrays of uint8_t *)
}.

Definition upd {A} (f : string -> option A) (x : string) (a : A) : string -> option A :=
  fun y => if String.eqb y x then Some a else f y.

Definition set_scal (m : mem) (x : string) (a : lty * cval) : mem :=
  {| m_scal := upd (m_scal m) x a; m_arr := m_arr m |}.
Definition set_arr (m : mem) (x : string) (l : list Z) : mem :=
  {| m_scal := m_scal m; m_arr := upd (m_arr m) x l |}.

(** access path of an lvalue expression *)
Fixpoint path (e : expr) : option string :=
  match e with
  | EId x => Some x
  | EFld ar e f =>
      match path e with
      | Some p => Some (p ++ (if ar then "->" else ".") ++ f)%string
      | None => None
      end
  | EUn UDeref e =>
      match path e with Some p => Some ("*" ++ p)%string | None => None end
  | _ => None
  end.

(** arguments of calls to user-supplied functions *)
Inductive arg := AVal (v : cval) | AArr (l : list Z) | ASym (s : string).

Record ctx := {
  c_types : string -> option lty;
  c_macros : list (string * macro);
  (* pure functions and user-supplied function-like macros *)
  c_funs : string -> option (list arg -> res cval);
  (* functions with effects on memory, called as statements or on the right of = *)
  c_calls : string -> option (list expr -> mem -> res (mem * cval))
}.

(** value of a floating constant written digits.digits *)
Definition flt_const (txt : string) : dbl :=
  let '(a, r) := span (fun c => negb (Ascii.eqb c ".")) txt in
  let b := match r with String _ b => b | EmptyString => EmptyString end in
  match num_dec 0 (a ++ b)%string with
  | Some n => dbl_of_decimal false n (- Z.of_nat (String.length b))
  | None => S754_nan
  end.

(** values of macro parameters; parameters that stand for arrays or plain names have no value *)
Fixpoint bind_args (ps : list string) (vs : list arg) : option (list (string * cval)) :=
  match ps, vs with
  | [], [] => Some []
  | p :: ps', AVal v :: vs' =>
      match bind_args ps' vs' with Some l => Some ((p, v) :: l) | None => None end
  | p :: ps', _ :: vs' => bind_args ps' vs'
  | _, _ => None
  end.

Definition read_idx (a : option (list Z)) (i : Z) : res cval :=
  match a with
  | None => UB "not an array"
  | Some l =>
      if (i <? 0) then UB "array index"
      else match nth_error l (Z.to_nat i) with
           | Some z => Ok (VI U8 z)
           | None => UB "array index"
           end
  end.

(** [eval n c m loc e]: [n] bounds the nesting of macro expansions, [loc] are the values of
    macro parameters *)
Fixpoint eval (n : nat) (c : ctx) (m : mem) : list (string * cval) -> expr -> res cval :=
  fix ev (loc : list (string * cval)) (e : expr) {struct e} : res cval :=
    let rd (p : option string) :=
      match p with
      | Some x => match m_scal m x with Some (_, v) => Ok v | None => UB "unknown object" end
      | None => UB "not an object"
      end in
    match e with
    | EInt t z => Ok (VI t z)
    | EFlt txt => Ok (VD (flt_const txt))
    | EId x =>
        match lookup x loc with
        | Some v => Ok v
        | None =>
            match lookup x (c_macros c) with
            | Some {| m_params := None; m_body := b |} =>
                match n, parse_expr_toks b with
                | S n', Some e' => eval n' c m [] e'
                | _, _ => UB "macro"
                end
            | _ => rd (Some x)
            end
        end
    | EFld _ _ _ => rd (path e)
    | EUn UDeref _ => rd (path e)
    | EIdx a i =>
        do v <- ev loc i;
        match path a, v with
        | Some p, VI _ z => read_idx (m_arr m p) z
        | _, _ => UB "array access"
        end
    | EUn (UCast ty) e1 =>
        do v <- ev loc e1;
        match c_types c ty with
        | Some l => to_obj l v
        | None => UB "unknown type"
        end
    | EUn u e1 => do v <- ev loc e1; un_val u v
    | EBin OLand a b =>
        do v <- ev loc a;
        if truth v then do w <- ev loc b; Ok (vbool (truth w)) else Ok (vbool false)
    | EBin OLor a b =>
        do v <- ev loc a;
        if truth v then Ok (vbool true) else do w <- ev loc b; Ok (vbool (truth w))
    | EBin o a b => do v <- ev loc a; do w <- ev loc b; bin_val o v w
    | ECond e1 a b => do v <- ev loc e1; if truth v then ev loc a else ev loc b
    | ECall f args =>
        do vs <-
          (fix evs (l : list expr) : res (list arg) :=
             match l with
             | [] => Ok []
             | e1 :: r =>
                 do v <-
                   match e1 with
                   | EId x =>
                       match m_arr m x with
                       | Some d => Ok (AArr d)
                       | None =>
                           match lookup x loc, lookup x (c_macros c), m_scal m x with
                           | None, None, None => Ok (ASym x)
                           | _, _, _ => do v <- ev loc e1; Ok (AVal v)
                           end
                       end
                   | EFld _ _ _ =>
                       match path e1 with
                       | Some p =>
                           match m_arr m p with
                           | Some d => Ok (AArr d)
                           | None => do v <- ev loc e1; Ok (AVal v)
                           end
                       | None => UB "argument"
                       end
                   | _ => do v <- ev loc e1; Ok (AVal v)
                   end;
                 do vs <- evs r; Ok (v :: vs)
             end) args;
        match lookup f (c_macros c) with
        | Some {| m_params := Some ps; m_body := b |} =>
            match n, parse_expr_toks b, bind_args ps vs with
            | S n', Some e', Some l => eval n' c m l e'
            | _, _, _ => UB "macro call"
            end
        | _ =>
            match c_funs c f with
            | Some g => g vs
            | None => UB "unknown function"
            end
        end
    | EPost _ => UB "side effect inside a value"
    end.

(** ** Statements *)

(** stores into an object; an index of the form x++ also increments x *)
Definition assign (n : nat) (c : ctx) (m : mem) (l : expr) (v : cval) : res mem :=
  match l with
  | EIdx a i =>
      do im <-
        match i with
        | EPost (EId x) =>
            match m_scal m x with
            | Some (LInt t, VI _ z) =>
                do nv <- bin_val OAdd (VI t z) (VI I32 1);
                do nz <- to_int t nv;
                Ok (z, set_scal m x (LInt t, VI t nz))
            | _ => UB "increment"
            end
        | _ => do iv <- eval n c m [] i;
               match iv with VI _ z => Ok (z, m) | VD _ => UB "array index" end
        end;
      let '(z, m') := im in
      match path a with
      | Some p =>
          match m_arr m' p with
          | Some d =>
              if (z <? 0) || (Z.of_nat (List.length d) <=? z) then UB "array index"
              else
                do b <- to_int U8 v;
                Ok (set_arr m' p
                      (firstn (Z.to_nat z) d ++ b :: skipn (S (Z.to_nat z)) d)%list)
          | None => UB "not an array"
          end
      | None => UB "not an array"
      end
  | _ =>
      match path l with
      | Some p =>
          match m_scal m p with
          | Some (t, _) => do w <- to_obj t v; Ok (set_scal m p (t, w))
          | None => UB "unknown object"
          end
      | None => UB "not an lvalue"
      end
  end.

(** an expression used as a statement *)
Definition exec_expr (n : nat) (c : ctx) (m : mem) (e : expr) : res mem :=
  match e with
  | EBin OAsg l (ECall f args as r) =>
      match c_calls c f with
      | Some g => do mv <- g args m; let '(m', v) := mv in assign n c m' l v
      | None => do v <- eval n c m [] r; assign n c m l v
      end
  | EBin OAsg l r => do v <- eval n c m [] r; assign n c m l v
  | EBin OOrAsg l r =>
      do a <- eval n c m [] l;
      do b <- eval n c m [] r;
      do v <- bin_val OOr a b;
      assign n c m l v
  | EPost l => do a <- eval n c m [] l; do v <- bin_val OAdd a (VI I32 1); assign n c m l v
  | EUn (UCast _) e1 => do _ <- eval n c m [] e1; Ok m
  | ECall f args =>
      match c_calls c f with
      | Some g => do mv <- g args m; Ok (fst mv)
      | None => do _ <- eval n c m [] e; Ok m
      end
  | _ => do _ <- eval n c m [] e; Ok m
  end.

(** [for] without body effects other than its step; [fuel] bounds the iterations *)
Fixpoint exec_for (fuel n : nat) (c : ctx) (m : mem) (b step : expr)
         (body : mem -> res mem) : res mem :=
  match fuel with
  | O => UB "loop does not end within the bound"
  | S f =>
      do v <- eval n c m [] b;
      if truth v then
        do m1 <- body m;
        do m2 <- exec_expr n c m1 step;
        exec_for f n c m2 b step body
      else Ok m
  end.

(** result of a statement: the memory and, if a return was reached, the returned value *)
Fixpoint exec (n : nat) (c : ctx) (m : mem) (s : stmt) {struct s} : res (mem * option cval) :=
  match s with
  | SSkip => Ok (m, None)
  | SExpr e => do m' <- exec_expr n c m e; Ok (m', None)
  | SReturn e => do v <- eval n c m [] e; Ok (m, Some v)
  | SDecl ty x init =>
      match c_types c ty with
      | None => UB "unknown type"
      | Some t =>
          match init with
          | Some e => do v <- eval n c m [] e; do w <- to_obj t v; Ok (set_scal m x (t, w), None)
          | None => Ok (set_scal m x (t, VI I32 0), None)
            (* the value is indeterminate in C; the emitted code always assigns before reading *)
          end
      end
  | SIf e s1 s2 =>
      do v <- eval n c m [] e;
      if truth v then exec n c m s1
      else match s2 with Some s' => exec n c m s' | None => Ok (m, None) end
  | SFor a b step body =>
      do m1 <- exec_expr n c m a;
      do m2 <- exec_for 1000 n c m1 b step
                 (fun m => do r <- exec n c m body; Ok (fst r));
      Ok (m2, None)
  | SBlock l =>
      (fix run (m : mem) (l : list stmt) : res (mem * option cval) :=
         match l with
         | [] => Ok (m, None)
         | s :: r =>
             do mr <- exec n c m s;
             match mr with
             | (m', Some v) => Ok (m', Some v)
             | (m', None) => run m' r
             end
         end) m l
  end.

Definition exec_list (n : nat) (c : ctx) (m : mem) (l : list stmt) : res (mem * option cval) :=
  exec n c m (SBlock l).

(** typedef names: stdint types, the helper types of dbccodeconf.h as generated by default,
    sigfloat_t as suggested there *)
Definition std_types (s : string) : option lty :=
  lookup s
    [("int8_t", LInt I8); ("int16_t", LInt I16); ("int32_t", LInt I32); ("int64_t", LInt I64);
     ("uint8_t", LInt U8); ("uint16_t", LInt U16); ("uint32_t", LInt U32); ("uint64_t", LInt U64);
     ("bitext_t", LInt I32); ("ubitext_t", LInt U32); ("sigfloat_t", LDbl); ("void", LVoid)]%string.
