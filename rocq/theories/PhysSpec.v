(** Physical values: the numbers as they are written in the file, the types and values of the members for physical
    values, and how far a double may be off. *)

From Coq Require Import ZArith NArith QArith Qabs List String Ascii Bool.
From Verif Require Import Base Dbl CSyntax CSem CRun Types MsgSpec CodecEnv ScanSpec ConvSpec CodecSpec SigSpec DeclSpec.
Import ListNotations.
Open Scope Z_scope.

(** the written number *)
Definition written (n : numeral) : Q :=
  match n with
  | NInt z => inject_Z z
  | NDec neg a b ex =>
      (inject_Z (if neg then - Z.of_N (digits_value (a ++ b)) else Z.of_N (digits_value (a ++ b)))
       * (10 # 1) ^ (match ex with Some e => e | None => 0 end - Z.of_nat (String.length b)))%Q
  end.

(** ** Types *)

(** smallest and largest raw value *)
Definition raw_low (signed : bool) (len : Z) : Z := if signed then - 2 ^ (len - 1) else 0.
Definition raw_high (signed : bool) (len : Z) : Z := if signed then 2 ^ (len - 1) - 1 else 2 ^ len - 1.
Definition type_low (t : cty) : Z := if is_signed t then - 2 ^ (width t - 1) else 0.
Definition type_high (t : cty) : Z := if is_signed t then 2 ^ (width t - 1) - 1 else 2 ^ width t - 1.
(** the smallest type, signed when the raw value is signed or when a physical value is negative (factors above 0) *)
Definition smallest_type (signed : bool) (len F O : Z) : cty :=
  let lo := raw_low signed len * F + O in
  let hi := raw_high signed len * F + O in
  let holds t := (type_low t <=? lo) && (hi <=? type_high t) in
  if signed || (lo <? 0)
  then if holds I8 then I8 else if holds I16 then I16 else if holds I32 then I32 else I64
  else if holds U8 then U8 else if holds U16 then U16 else if holds U32 then U32 else U64.

(** ** Members for physical values *)

Definition phys_name (d : sigdecl) : string := (sd_name d ++ "_phys")%string.
Definition phys_type (d : sigdecl) (F O : Z) : cty := smallest_type (sd_signed d) (Z.of_N (sd_len d)) F O.
(** integers when factor and offset are written as integers, else a double *)
Definition phys_object (d : sigdecl) : lty :=
  match sd_factor d, sd_offset d with
  | NInt F, NInt G => LInt (phys_type d F G)
  | _, _ => LDbl
  end.
Definition phys_struct (mm : mem) (m : msgdecl) : Prop :=
  forall d, In d (md_sigs m) -> unscaledb d = false -> has_type mm (member (phys_name d)) (phys_object d).

(** how far a physical value in a double may be off: factor and offset are printed with nine places, and doubles are rounded *)
Definition tolerance (z : Z) (F O : Q) : Q :=
  ((Qabs (inject_Z z) + 1) * (106 # 10 ^ 11) + (Qabs (inject_Z z * F) + Qabs O) * (1 # 2 ^ 50))%Q.
(** [v] is the physical value of the raw value [z] *)
Definition phys_value (d : sigdecl) (z : Z) (v : cval) : Prop :=
  match sd_factor d, sd_offset d with
  | NInt F, NInt G => v = VI (phys_type d F G) (z * F + G)
  | f, o => exists x q, v = VD x /\ is_double x /\ dval x = Some q /\
              (Qabs (q - (inject_Z z * written f + written o)) <= tolerance z (written f) (written o))%Q
  end.
(** a step of one raw unit is not lost in the tolerance *)
Definition coarse (d : sigdecl) (z : Z) : Prop :=
  (8 * tolerance z (written (sd_factor d)) (written (sd_offset d)) <= Qabs (written (sd_factor d)))%Q.
Definition phys_is (mm : mem) (d : sigdecl) (v : cval) : Prop := m_scal mm (member (phys_name d)) = Some (phys_object d, v).

(** ** Declarations whose physical values can be computed *)

(** C computes z * F + O in the promoted type [t] of the field; an unsigned result may wrap when the physical type [p] is not wider *)
Definition no_overflow (t p : cty) (F O z : Z) : Prop :=
  if is_signed t then can_hold t (z * F) /\ can_hold t (z * F + O)
  else width p <= width t \/ can_hold t (z * F + O).
(** and back: (x - O) / F in the promoted type of the physical value *)
Definition no_overflow_back (t : cty) (F z : Z) : Prop := is_signed t = true -> can_hold t (z * F) /\ can_hold t z.
Definition literal_int (z : Z) : Prop := - 2 ^ 31 < z < 2 ^ 31.
Definition moderate (n : numeral) : Prop := (Qabs (written n) <= inject_Z (10 ^ 30))%Q.

(** positive integer factors without overflow; any other numbers up to 1e30 *)
Definition converts (d : sigdecl) : Prop :=
  match sd_factor d, sd_offset d with
  | NInt F, NInt G => 0 < F /\ literal_int F /\ literal_int G /\
      forall z, decl_carries d z -> no_overflow (promote (field_type d)) (phys_type d F G) F G z
  | f, o => moderate f /\ moderate o
  end.
(** ... and back: for the raw value [z] *)
Definition converts_back (d : sigdecl) (z : Z) : Prop :=
  match sd_factor d, sd_offset d with
  | NInt F, NInt G => no_overflow_back (promote (phys_type d F G)) F z
  | _, _ => coarse d z
  end.
(** scaled signals of the same name have the same scaling and the same field type *)
Definition one_scaling (ms : list msgdecl) (d : sigdecl) : Prop :=
  forall m d', In m ms -> In d' (md_sigs m) -> unscaledb d' = false -> sd_name d' = sd_name d ->
    sd_factor d' = sd_factor d /\ sd_offset d' = sd_offset d /\ field_type d' = field_type d.
Definition convertible (ms : list msgdecl) (m : msgdecl) : Prop :=
  forall d, In d (md_sigs m) -> unscaledb d = false -> converts d /\ one_scaling ms d.
(** the raw value that Pack makes of the physical value of [z]: [z] with an integer scaling; with doubles one step towards
    zero may be lost *)
Definition recovered (d : sigdecl) (z w : Z) : Prop :=
  match sd_factor d, sd_offset d with
  | NInt _, NInt _ => w = z
  | _, _ => w = z \/ w = z - Z.sgn z
  end.
(** the checksum has no scaling *)
Definition plain_sum (e : env) (m : msgdecl) : Prop := forall d, In d (md_sigs m) -> checksum_decl e m d -> unscaledb d = true.

(** the payload bits of the signal are those of [w] *)
Definition carried_bits (d : sigdecl) (data : list Z) (w : Z) : Prop :=
  forall k, 0 <= k < Z.of_N (sd_len d) -> payload_bit data (decl_pos d k) = Z.testbit w k.
(** a struct in which the members of scaled signals are the physical values of the raw values [raw] *)
Definition phys_of (mm : mem) (m : msgdecl) (raw : sigdecl -> Z) : Prop :=
  forall d, In d (md_sigs m) -> unscaledb d = false ->
    decl_carries d (raw d) /\ converts_back d (raw d) /\ exists v, phys_is mm d v /\ phys_value d (raw d) v.
