(** IEEE binary64 through the specification floats of the standard library.
    A double is a [spec_float]; operations round to nearest, ties to even. *)

From Coq Require Import ZArith NArith List String Ascii Bool.
From Coq Require Import Floats.SpecFloat.
From Verif Require Import Base.
Import ListNotations.
Open Scope Z_scope.

Definition dbl : Type := spec_float.
Definition dprec : Z := 53.
Definition demax : Z := 1024.

Definition dadd : dbl -> dbl -> dbl := SFadd dprec demax.
Definition dsub : dbl -> dbl -> dbl := SFsub dprec demax.
Definition dmul : dbl -> dbl -> dbl := SFmul dprec demax.
Definition ddiv : dbl -> dbl -> dbl := SFdiv dprec demax.
Definition dabs : dbl -> dbl := SFabs.

(** conversion of an integer, correctly rounded *)
Definition dbl_of_Z (z : Z) : dbl := binary_normalize dprec demax z 0 false.

(** correctly rounded value of the fraction [(-1)^s * n / d] *)
Definition dbl_of_ratio (s : bool) (n d : positive) : dbl :=
  ddiv (S754_finite s n 0) (S754_finite false d 0).

(** correctly rounded value of the decimal number [(-1)^s * n * 10^e] *)
Definition dbl_of_decimal (s : bool) (n : N) (e : Z) : dbl :=
  match n with
  | N0 => S754_zero s
  | Npos p =>
      match e with
      | Z0 => binary_normalize dprec demax (if s then Zneg p else Zpos p) 0 s
      | Zpos q => binary_normalize dprec demax
                    (let m := Zpos p * 10 ^ e in if s then - m else m) 0 s
      | Zneg q => dbl_of_ratio s p (Pos.pow 10 q)
      end
  end.

Definition deqb (a b : dbl) : bool :=
  match SFcompare a b with Some Eq => true | _ => false end.
Definition dltb (a b : dbl) : bool :=
  match SFcompare a b with Some Lt => true | _ => false end.

(** truncation toward zero; [None] for infinities and NaN *)
Definition dtrunc (d : dbl) : option Z :=
  match d with
  | S754_zero _ => Some 0
  | S754_infinity _ | S754_nan => None
  | S754_finite s m e =>
      let a := match e with
               | Zneg q => Zpos m / 2 ^ Zpos q
               | _ => Zpos m * 2 ^ e
               end in
      Some (if s then - a else a)
  end.
