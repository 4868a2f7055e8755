(** What the command line promises, independent of the option parser. *)

From Coq Require Import List String Ascii Bool.
From Verif Require Import Base.
Import ListNotations.
Open Scope string_scope.

(** a word that starts an option *)
Definition starts_dash (a : string) : bool :=
  match a with String c _ => Ascii.eqb c "-" | EmptyString => false end.

(** the values given to option [k], in order of appearance: the following word unless that word
    is an option itself *)
Fixpoint values (k : string) (argv : list string) : list string :=
  match argv with
  | [] => []
  | a :: r =>
      if String.eqb a k
      then match r with
           | b :: _ => if starts_dash b then "" else b
           | [] => ""
           end :: values k r
      else values k r
  end.

Fixpoint last_of (l : list string) : option string :=
  match l with
  | [] => None
  | a :: r => match last_of r with Some b => Some b | None => Some a end
  end.

Definition last_value (k : string) (argv : list string) : option string :=
  last_of (values k argv).

(** one option with or without value *)
Definition is_group (g : list string) (k : string) : Prop :=
  starts_dash k = true /\ (g = [k] \/ exists v, starts_dash v = false /\ g = [k; v]).

(** path separators *)
Definition sep_char (c : ascii) : bool := Ascii.eqb c "/" || Ascii.eqb c "\".
Definition ends_sep (s : string) : bool :=
  match last_char s with Some c => sep_char c | None => false end.
Definition begins_sep (s : string) : bool :=
  match s with String c _ => sep_char c | EmptyString => false end.
