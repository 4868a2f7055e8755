(** Model of /repo/src/codegen/filewriter.cpp: the text a sequence of Append calls puts into the
    stream. *)

From Coq Require Import ZArith NArith List String Ascii Bool.
From Verif Require Import Base.
Import ListNotations.
Open Scope string_scope.

(** __print_loc__, filewriter.cpp 8-22: formatting into a buffer of 10000 bytes *)
Definition print_loc (s : string) : string := cut 10000 s.

(** Append(const std::string&) and NewLine(char), filewriter.cpp 61-73, 83-89 *)
Definition append_s (s : string) : string :=
  match last_char s with
  | None => nl
  | Some c => if Ascii.eqb c NL then s else s ++ nl
  end.

(** Append(const char*, ...), filewriter.cpp 38-45.  The argument is the formatted text. *)
Definition L (s : string) : string := append_s (print_loc s).

(** AppendText(const char*, ...), filewriter.cpp 47-54 *)
Definition text_f (s : string) : string := print_loc s.

(** Append(size_t), filewriter.cpp 75-81 *)
Definition nls (n : nat) : string := repeat_char n NL.
