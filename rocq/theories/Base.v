(** Basic vocabulary shared by the model files: outcomes of running C++ code,
    string helpers that mirror std::string / printf, fixed width wrap-around. *)

From Coq Require Import ZArith NArith List String Ascii Bool Lia.
Import ListNotations.
Open Scope string_scope.

(** Outcome of running a piece of the generator (C++) or of the generated code (C).
    [UB] is undefined behaviour, [Throw] a C++ exception that nobody catches. *)
Inductive res (A : Type) : Type :=
| Ok (a : A)
| UB (why : string)
| Throw (why : string).
Arguments Ok {A} a.
Arguments UB {A} why.
Arguments Throw {A} why.

Definition bind {A B} (r : res A) (f : A -> res B) : res B :=
  match r with
  | Ok a => f a
  | UB w => UB w
  | Throw w => Throw w
  end.

Notation "'do' x <- r ; k" := (bind r (fun x => k))
  (at level 200, x pattern, r at level 100, k at level 200, right associativity).

(** ** Fixed width integers: unsigned and signed wrap-around of a mathematical integer. *)

Definition uwrap (w z : Z) : Z := (z mod 2 ^ w)%Z.
Definition swrap (w z : Z) : Z :=
  (let u := z mod 2 ^ w in if u <? 2 ^ (w - 1) then u else u - 2 ^ w)%Z.

(** ** Characters and strings *)

Definition ch (n : N) : ascii := ascii_of_N n.
Definition code (c : ascii) : N := N_of_ascii c.

(** char is signed on the platforms the model covers (x86-64 GCC): the numeric value of a byte
    read through [char]. *)
Definition schar (c : ascii) : Z :=
  let n := Z.of_N (code c) in if (n <? 128)%Z then n else (n - 256)%Z.

Definition NL : ascii := ascii_of_nat 10.
Definition nl : string := String NL "".
Definition DQ : ascii := ascii_of_nat 34.
Definition dq : string := String DQ "".

Definition in_range (lo hi : ascii) (c : ascii) : bool :=
  ((code lo <=? code c) && (code c <=? code hi))%N.
Definition is_digit (c : ascii) : bool := in_range "0" "9" c.
Definition is_lower (c : ascii) : bool := in_range "a" "z" c.
Definition is_upper (c : ascii) : bool := in_range "A" "Z" c.
Definition is_alpha (c : ascii) : bool := is_lower c || is_upper c.
Definition is_alnum (c : ascii) : bool := is_alpha c || is_digit c.
(** characters of a C identifier *)
Definition is_idstart (c : ascii) : bool := is_alpha c || Ascii.eqb c "_".
Definition is_idchar (c : ascii) : bool := is_idstart c || is_digit c.

Fixpoint all_chars (p : ascii -> bool) (s : string) : bool :=
  match s with
  | EmptyString => true
  | String c r => p c && all_chars p r
  end.

(** A C identifier. *)
Definition is_ident (s : string) : bool :=
  match s with
  | EmptyString => false
  | String c r => is_idstart c && all_chars is_idchar r
  end.

Definition digit_val (c : ascii) : N := (code c - 48)%N.
Definition digit_chr (d : N) : ascii := ch (48 + d).
(** digit in base 16, upper or lower case *)
Definition xdigit_chr (up : bool) (d : N) : ascii :=
  if (d <? 10)%N then ch (48 + d) else ch ((if up then 55 else 87) + d).

Fixpoint digits_aux (up : bool) (b : N) (fuel : nat) (n : N) (acc : string) : string :=
  match fuel with
  | O => acc
  | S f =>
      let acc' := String (xdigit_chr up (n mod b)) acc in
      if (n <? b)%N then acc' else digits_aux up b f (n / b) acc'
  end.

(** printf conversions of non-negative numbers, without padding: %u, %x, %X *)
Definition print_base (up : bool) (b n : N) : string :=
  digits_aux up b (S (N.to_nat (N.log2 n))) n "".
Definition dec (n : N) : string := print_base true 10 n.
Definition hexu (n : N) : string := print_base true 16 n.
Definition hexl (n : N) : string := print_base false 16 n.

(** %d of a mathematical integer *)
Definition decZ (z : Z) : string :=
  if (z <? 0)%Z then "-" ++ dec (Z.to_N (- z)) else dec (Z.to_N z).

Fixpoint repeat_char (n : nat) (c : ascii) : string :=
  match n with
  | O => ""
  | S k => String c (repeat_char k c)
  end.

(** padding to a minimal width: %Nd, %0Nd, %-Nd *)
Definition pad_left (w : nat) (c : ascii) (s : string) : string :=
  repeat_char (w - String.length s) c ++ s.
Definition pad_right (w : nat) (c : ascii) (s : string) : string :=
  s ++ repeat_char (w - String.length s) c.

(** snprintf into a buffer of [n] bytes keeps at most [n - 1] characters *)
Definition cut (n : nat) (s : string) : string := substring 0 (n - 1) s.

(** last character, std::string::back on a non-empty string *)
Fixpoint last_char (s : string) : option ascii :=
  match s with
  | EmptyString => None
  | String c EmptyString => Some c
  | String _ r => last_char r
  end.

Definition first_char (s : string) : option ascii :=
  match s with
  | EmptyString => None
  | String c _ => Some c
  end.

Fixpoint rev_string_app (s acc : string) : string :=
  match s with
  | EmptyString => acc
  | String c r => rev_string_app r (String c acc)
  end.
Definition rev_string (s : string) : string := rev_string_app s "".

Fixpoint map_string (f : ascii -> ascii) (s : string) : string :=
  match s with
  | EmptyString => EmptyString
  | String c r => String (f c) (map_string f r)
  end.

(** concatenation of a list of strings *)
Fixpoint sconcat (l : list string) : string :=
  match l with
  | [] => ""
  | s :: r => s ++ sconcat r
  end.

(** membership of a string in a list *)
Definition smem (s : string) (l : list string) : bool := existsb (String.eqb s) l.
