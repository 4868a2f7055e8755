(** Signals that do not fit into the frame of their message: vocabulary of the statements. *)

From Coq Require Import ZArith NArith List String Ascii Bool.
From Verif Require Import Base CSyntax Types Formatter SigPrinter Settings MainGen App PPProof CodecSpec DriverSpec.
Import ListNotations.
Open Scope Z_scope.

(** one run of the generator, without conditions on the messages *)
Definition generated (drv : string) (d : dbclist) (h c : string) : Prop :=
  is_ident drv = true /\ (String.length drv <= 900)%nat /\
  exists srt out date dbc hi low nc ni nf rest,
    let s := configure drv out (common_info date) (driver_info dbc) hi low nc ni nf in
    sorts srt /\ match date with Some t => no_nl t = true | None => True end /\ no_nl dbc = true /\
    0 <= hi < 2 ^ 32 /\ 0 <= low < 2 ^ 32 /\
    generate_main srt d s = Ok ((f_coreh_path (st_f s), h) :: (f_corec_path (st_f s), c) :: rest).

(** the bit the expression builder starts from: the last one of an Intel signal in the numbering of
    CodecSpec.v, the first one of a Motorola signal *)
Definition first_bit (sg : signal) : Z :=
  match s_order sg with Intel => s_start sg + s_len sg - 1 | Motorola => s_start sg end.

(** the builder counts bits in a uint16_t and takes everything above 511 for 511 *)
Definition countable (sg : signal) (dlc : Z) : Prop :=
  first_bit sg < 512 \/ dlc <= 63 /\ first_bit sg < 65536.

(** inside a block no statement starts with the tokens of the line *)
Definition no_statement (s : string) : Prop := forall rs k, srun (KBlock rs :: k, MStmt) (lex s) = None.

(** the assignment to a signal's field with the error text for an expression *)
Definition error_text : string := "Error in DBC file !!!! Dlc of this message must be greater."%string.
Definition error_line (sg : signal) : string :=
  (if s_signed sg then
     "  _m->" ++ s_name sg ++ " = (" ++ print_type (s_typero sg) ++ ") __ext_sig__(( "
       ++ error_text ++ " ), " ++ decZ (s_len sg) ++ ");"
   else
     "  _m->" ++ s_name sg ++ " = (" ++ print_type (s_typero sg) ++ ") ( " ++ error_text ++ " );")%string.

(** starts inside the frame and leaves it *)
Definition leaves_frame (sg : signal) (dlc : Z) : Prop :=
  s_order sg = Motorola /\ s_start sg < 8 * dlc /\ ~ in_frame (s_order sg) (s_start sg) (s_len sg) dlc.
