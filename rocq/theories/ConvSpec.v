(** Words for scaled signals: values, ranges of C integer types, exact values of doubles. *)

From Coq Require Import ZArith NArith QArith List String Ascii Bool.
From Coq Require Import Floats.SpecFloat.
From Verif Require Import Base Dbl CSyntax CSem Types.
Import ListNotations.
Open Scope Z_scope.

(** values of a C integer type *)
Definition can_hold (t : cty) (v : Z) : Prop :=
  if is_signed t then - 2 ^ (width t - 1) <= v < 2 ^ (width t - 1) else 0 <= v < 2 ^ width t.

(** the double [d] is the integer [z] *)
Definition int_val (d : dbl) (z : Z) : Prop :=
  match d with
  | S754_zero _ => z = 0
  | S754_finite s m e =>
      let a := if s then Zneg m else Zpos m in
      if 0 <=? e then z = a * 2 ^ e else a = z * 2 ^ (- e)
  | _ => False
  end.

(** a signal whose scaling is done with integers, [F] and [O] its factor and offset *)
Definition int_scaled (sg : signal) (F O : Z) : Prop :=
  s_double sg = false /\ int_val (s_factor sg) F /\ int_val (s_offset sg) O.

(** ** Numbers in decimal notation *)

(** exact value of a finite double *)
Definition dval (d : dbl) : option Q :=
  match d with
  | S754_zero _ => Some 0%Q
  | S754_finite s m e =>
      let a := if s then Zneg m else Zpos m in
      Some (match e with Zneg q => (a # Pos.pow 2 q)%Q | _ => inject_Z (a * 2 ^ e) end)
  | _ => None
  end.
Definition is_double (d : dbl) : Prop := valid_binary 53 1024 d = true.

(** [txt] is [a].[b], possibly after a minus sign, [n] the number made of all its digits *)
Definition decimal (txt : string) (neg : bool) (a b : string) (n : N) : Prop :=
  txt = ((if neg then "-" else "") ++ a ++ "." ++ b)%string /\
  a <> ""%string /\ all_chars is_digit a = true /\ all_chars is_digit b = true /\ num_dec 0 (a ++ b) = Some n.
Definition decimal_value (neg : bool) (b : string) (n : N) : Q :=
  ((if neg then - Z.of_N n else Z.of_N n) # Pos.pow 10 (Pos.of_nat (String.length b)))%Q.

(** ** Scaling formulas in C *)

(** the number a literal stands for *)
Definition lit_val (e : expr) : option Q :=
  let flt txt := match is_float_text txt with
                 | true => let '(a, r) := span (fun c => negb (Ascii.eqb c ".")) txt in
                           let b := match r with String _ b => b | EmptyString => EmptyString end in
                           match num_dec 0 (a ++ b) with Some n => Some (decimal_value false b n) | None => None end
                 | false => None
                 end in
  match e with
  | EInt _ z => Some (inject_Z z)
  | EUn UNeg (EInt _ z) => Some (inject_Z (- z))
  | EFlt txt => flt txt
  | EUn UNeg (EFlt txt) => match flt txt with Some q => Some (Qopp q) | None => None end
  | _ => None
  end.

(** x * F + O; a factor 1 or an offset 0 may be left out *)
Inductive from_form (x : expr) (F O : Q) : expr -> Prop :=
| ff_both : forall f o, lit_val f = Some F -> lit_val o = Some O -> from_form x F O (EBin OAdd (EBin OMul x f) o)
| ff_mul : forall f, lit_val f = Some F -> O == 0 -> from_form x F O (EBin OMul x f)
| ff_add : forall o, F == 1 -> lit_val o = Some O -> from_form x F O (EBin OAdd x o).
(** (x - O) / F, converted to [ty] *)
Inductive to_form (x : expr) (ty : string) (F O : Q) : expr -> Prop :=
| tf_both : forall f o, lit_val f = Some F -> lit_val o = Some O -> to_form x ty F O (EUn (UCast ty) (EBin ODiv (EBin OSub x o) f))
| tf_div : forall f, lit_val f = Some F -> O == 0 -> to_form x ty F O (EUn (UCast ty) (EBin ODiv x f))
| tf_sub : forall o, F == 1 -> lit_val o = Some O -> to_form x ty F O (EUn (UCast ty) (EBin OSub x o)).
