(** The macros an emitted header defines. *)

From Coq Require Import ZArith NArith List String Ascii Bool.
From Verif Require Import Base Dbl CSyntax CSem CRun Types Formatter Settings MainGen App LexLemmas PPProof CodecSpec MsgSpec DriverSpec.
Import ListNotations.
Open Scope string_scope.

(** the macros known after the text [h], when those of [conf] (compiler options, configuration
    headers) were known before *)
Definition after_header (conf : list (string * macro)) (h : string) : list (string * macro) :=
  pp_macros (pp_run conf (lines h)).

(** names in the #define lines of a text, whether or not a line is active *)
Definition defines (ls : list string) : list string :=
  flat_map (fun l => match directive l with
                     | Some (d, rest) => if String.eqb d "define" then [fst (pp_define rest)] else []
                     | None => []
                     end) ls.

(** the text has exactly one #define of the name *)
Definition once (x : string) (h : string) : Prop := count_occ string_dec (defines (lines h)) x = 1%nat.

(** texts taken over from the data base into lines of the header *)
Record header_sig_ok (sg : signal) : Prop := {
  hs_unit : no_nl (s_unit sg) = true /\ (String.length (s_unit sg) <= 1000)%nat;
  hs_nums : (String.length (prt_double (s_factor sg) 9) <= 400)%nat /\
            (String.length (prt_double (s_offset sg) 9) <= 400)%nat;
  hs_table : forall t v, In (t, v) (s_valdefs sg) ->
               all_chars is_idchar t = true /\ (String.length t <= 1000)%nat
}.
Record header_ok (d : dbclist) : Prop := {
  ho_sigs : forall m sg, In m (d_msgs d) -> In sg (g_sigs m) -> header_sig_ok sg;
  ho_dlc : (0 <= d_maxdlc d < 256)%Z
}.
