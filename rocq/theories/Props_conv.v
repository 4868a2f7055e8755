(** Properties C14-C18 and C44: types of scaled signals, conversion macros, printed numbers.

    [can_hold], [int_scaled], [dval], [decimal], [from_form], [to_form] are in ConvSpec.v; [scaled_in], [declared],
    [no_wrap], [phys_expr], [raw_expr] in ConvEnv.v.  [scaled_in e msg sg]: the program [e] contains one emitted driver,
    [sg] is a scaled signal of its message [msg], all scaled signals of this name in the data base have the same
    factor and offset, and the header defines its macros once. *)

From Coq Require Import ZArith NArith QArith Qabs List String Ascii Bool Lia ZifyBool Permutation.
From Coq Require Import Floats.SpecFloat.
From Verif Require Import Base Dbl CSyntax CSem CRun Types Formatter Settings MainGen LineParser Scanner App CodecSpec MsgSpec DriverSpec HeaderSpec
  HeaderProof ScanSpec CodecEnv Concrete Samples ConvSpec ConvEnv SigTypes DblPrint ConvMacros ConvThms.
Import ListNotations.
Open Scope Z_scope.
Open Scope string_scope.

(** ** C14.  Full claim: for all lengths 1..64.  Proved for every signal of every data base that is read; data bases
    with longer signals than 62 bits (unsigned) or 63 bits (signed) are not read: see the refutation. *)
Theorem C14_raw_type_partial : forall srt text d m sg, sorts srt -> scan srt text = Ok d -> In m (d_msgs d) -> In sg (g_sigs m) ->
  (1 <= s_len sg)%Z ->
  is_signed (s_typero sg) = s_signed sg /\
  (forall v, carries (s_signed sg) (s_len sg) v -> can_hold (s_typero sg) v) /\
  (forall t, is_signed t = s_signed sg -> (forall v, carries (s_signed sg) (s_len sg) v -> can_hold t v) -> (width (s_typero sg) <= width t)%Z).
Proof.
  intros srt text d m sg SR H IM IS L. pose proof (declared_types sg (scanned_declared _ _ _ _ _ SR H IM IS) L) as T.
  split; [apply T|]. split.
  - apply width_carry; auto; apply T.
  - intros t S C. apply (tf_least _ _ _ _ _ _ _ T t S). eapply carry_width; eauto.
Qed.
Print Assumptions C14_raw_type_partial.
Example C14_case : scan isort sample_text = Ok sample_db /\
  map (fun sg => (s_len sg, s_typero sg)) (g_sigs engine) = [(12%Z, U16); (9%Z, I16); (10%Z, U16); (8%Z, U8)].
Proof. split; vm_compute; reflexivity. Qed.
(** a 64-bit unsigned signal: a double is converted to an integer type that cannot hold it *)
Theorem C14_raw_type_refuted : exists line x, parse_signal_line line = UB x /\
  line = " SG_ Serial : 0|64@1+ (1,0) [0|0] """" GW".
Proof. exists " SG_ Serial : 0|64@1+ (1,0) [0|0] """" GW". eexists. split; [|reflexivity]. vm_compute. reflexivity. Qed.
Print Assumptions C14_raw_type_refuted.

(** ** C15.  Full claim: for every factor.  Proved for positive factors, and for negative factors of unsigned signals
    when the offset is not positive. *)
Theorem C15_phys_type_partial : forall srt text d m sg F O, sorts srt -> scan srt text = Ok d -> In m (d_msgs d) -> In sg (g_sigs m) ->
  (1 <= s_len sg)%Z -> int_scaled sg F O -> (0 < F \/ F < 0 /\ O <= 0 /\ s_signed sg = false)%Z ->
  forall v, carries (s_signed sg) (s_len sg) v -> can_hold (s_typephys sg) (v * F + O).
Proof.
  intros srt text d m sg F O SR H IM IS L (DD & VF & VO) P v V.
  pose proof (declared_types sg (scanned_declared _ _ _ _ _ SR H IM IS) L) as T. eapply (tf_phys _ _ _ _ _ _ _ T DD); eauto.
Qed.
Print Assumptions C15_phys_type_partial.
Definition no_sig : signal := Build_signal "" "" "" 0 0 false false (S754_zero false) (S754_zero false) Intel false U8 U8 [] [] "" "" MxNone.
Definition load : signal := Eval vm_compute in match find (fun s => String.eqb (s_name s) "Load_ro") (g_sigs engine) with Some s => s | None => no_sig end.
Example C15_case : In load (g_sigs engine) /\ int_scaled load 2 (-100) /\ s_signed load = false /\ s_len load = 8%Z /\ s_typephys load = I16.
Proof. split; [vm_compute; tauto|]. split; [|vm_compute; auto]. split; [reflexivity|]. vm_compute. auto. Qed.
(** values 1..256 in an 8-bit field *)
Theorem C15_phys_type_refuted : exists line sg F O v, parse_signal_line line = Ok (Some sg) /\ int_scaled sg F O /\
  line = " SG_ Left : 0|8@1+ (-1,256) [0|0] """" GW" /\ carries (s_signed sg) (s_len sg) v /\ ~ can_hold (s_typephys sg) (v * F + O).
Proof.
  exists " SG_ Left : 0|8@1+ (-1,256) [0|0] """" GW". eexists. exists (-1)%Z, 256%Z, 0%Z. split; [vm_compute; reflexivity|]. split; [split; [reflexivity|vm_compute; auto]|].
  split; [reflexivity|]. split; [vm_compute; split; congruence|]. unfold can_hold. cbn. lia.
Qed.
Print Assumptions C15_phys_type_refuted.

(** ** C16.  Full claim: for every factor and offset.  Missing: the cases in which the arithmetic of C, done in the
    promoted type of the field, leaves its range ([no_wrap]); they are refuted below. *)
Theorem C16_fromS_partial : forall e msg sg F O bits m z, scaled_in e msg sg -> declared sg -> (1 <= s_len sg)%Z ->
  int_scaled sg F O -> int_literal F -> int_literal O ->
  carries (s_signed sg) (s_len sg) z -> holds_raw bits m sg z ->
  can_hold (s_typephys sg) (z * F + O) -> no_wrap sg F O z ->
  eval (e_evals e) (e_ctx e) m [] (phys_expr e sg) = Ok (VI (s_typephys sg) (z * F + O)).
Proof. intros. eapply fromS_exact; eauto. Qed.
Print Assumptions C16_fromS_partial.

(** ** C17.  Full claim: for every factor other than zero and every offset.  Missing: as for C16, and negative factors
    when the physical type is unsigned. *)
Theorem C17_roundtrip_partial : forall e msg sg F O bits m m' z p, scaled_in e msg sg -> declared sg -> (1 <= s_len sg)%Z ->
  int_scaled sg F O -> int_literal F -> int_literal O ->
  carries (s_signed sg) (s_len sg) z -> holds_raw bits m sg z ->
  can_hold (s_typephys sg) (z * F + O) -> no_wrap sg F O z -> no_wrap_back sg F z ->
  eval (e_evals e) (e_ctx e) m [] (phys_expr e sg) = Ok p -> holds m' (s_namefloat sg) (phys_ty sg) p ->
  eval (e_evals e) (e_ctx e) m' [] (raw_expr e sg) = Ok (VI (s_typero sg) z).
Proof.
  intros e msg sg F O bits m m' z p SC DC L IN LF LO CA HR PH NW NB EV HP.
  rewrite (fromS_exact e msg sg F O SC IN DC L LF LO bits m z CA HR PH NW) in EV. apply Ok_inj in EV. subst p.
  eapply toS_exact; eauto.
Qed.
Print Assumptions C17_roundtrip_partial.

(** *** Cases *)
Definition own_scalingb (d : dbclist) (sg : signal) : bool :=
  forallb (fun m => forallb (fun s => s_simple s || negb (String.eqb (s_name s) (s_name sg))
    || (cval_eqb (VD (s_factor s)) (VD (s_factor sg)) && cval_eqb (VD (s_offset s)) (VD (s_offset sg)) &&
        Bool.eqb (s_double s) (s_double sg) && cty_eqb (s_typero s) (s_typero sg))) (g_sigs m)) (d_msgs d).
Lemma own_scalingb_ok : forall d sg, own_scalingb d sg = true -> own_scaling d sg.
Proof.
  intros d sg H m s IM IS SI N. unfold own_scalingb in H. rewrite forallb_forall in H. specialize (H m IM). rewrite forallb_forall in H.
  specialize (H s IS). rewrite SI, N, String.eqb_refl in H. cbn [negb orb] in H. splitb H.
  apply cval_eqb_ok in H. apply cval_eqb_ok in H2. apply Bool.eqb_prop in H1. apply cty_eqb_ok in H0.
  repeat split; try congruence.
Qed.
Lemma scaled_inb : forall e msg sg, program e -> In msg (d_msgs (e_db e)) -> In sg (g_sigs msg) ->
  g_notempty msg && negb (s_simple sg) && own_scalingb (e_db e) sg && onceb (defines (lines (e_h e))) (fromS_name e sg) &&
    onceb (defines (lines (e_h e))) (toS_name e sg) = true -> scaled_in e msg sg.
Proof.
  intros e msg sg P IM IS H. splitb H. constructor; auto.
  - split; [exact IS|]. now apply negb_true_iff.
  - now apply own_scalingb_ok.
  - split; now apply Nat.eqb_eq.
Qed.
Lemma sample_declared : forall m sg, In m (d_msgs sample_db) -> In sg (g_sigs m) -> declared sg.
Proof. intros m sg. apply (scanned_declared isort sample_text sample_db); [apply isort_sorts|]. vm_compute. reflexivity. Qed.
Lemma load_scaled : scaled_in sample engine load.
Proof. apply scaled_inb; [apply sample_program|vm_compute; tauto|vm_compute; tauto|vm_compute; reflexivity]. Qed.

(** raw 7 is -86 *)
Definition load_mem (z : Z) : mem := mk_mem (struct_of false engine [("Load_ro", z)]) "_d" [].
Example C16_case : scaled_in sample engine load /\ declared load /\ int_scaled load 2 (-100) /\ holds_raw false (load_mem 7) load 7 /\
  no_wrap load 2 (-100) 7 /\ no_wrap_back load 2 7 /\ can_hold (s_typephys load) (7 * 2 + -100) /\
  eval (e_evals sample) (e_ctx sample) (load_mem 7) [] (phys_expr sample load) = Ok (VI I16 (-86)).
Proof.
  split; [apply load_scaled|]. split; [apply (sample_declared engine); vm_compute; tauto|]. split; [split; [reflexivity|vm_compute; auto]|].
  split; [exists U8; vm_compute; auto|]. split; [vm_compute; repeat split; congruence|]. split; [vm_compute; repeat split; congruence|].
  split; [vm_compute; repeat split; congruence|]. vm_compute. reflexivity.
Qed.

(** data bases in which the formulas fail *)
Definition bad_text : string :=
"BO_ 1 Big: 8 ECU
 SG_ Low : 0|32@1+ (1,-100) [0|0] """" GW
 SG_ Down : 32|8@1+ (-1,100000) [0|0] """" GW
BO_ 2 First: 8 ECU
 SG_ Same : 0|8@1+ (2,0) [0|0] """" GW
 SG_ Rate : 8|16@1+ (0.1,-40) [0|0] """" GW
BO_ 3 Second: 8 ECU
 SG_ Same : 0|8@1+ (3,0) [0|0] """" GW
BO_ 4 Last: 1 ECU
 SG_ Dummy : 0|1@1+ (1,0) [0|0] """" GW
".
Definition bad_db : dbclist := Eval vm_compute in db_of bad_text.
Definition bad_files : list (string * string) := Eval vm_compute in files_of "drv" bad_db.
Definition bad_h : string := Eval vm_compute in snd (nth 0 bad_files ("", "")).
Definition bad_c : string := Eval vm_compute in snd (nth 1 bad_files ("", "")).
Definition bad : env := the_env 0 "drv" bad_db bad_h bad_c [] no_user no_calls.
Lemma bad_program : program bad.
Proof. apply programb_ok. vm_compute. reflexivity. Qed.
Definition big : message := Eval vm_compute in nth 0 (d_msgs bad_db) engine.
Definition low : signal := Eval vm_compute in nth 0 (g_sigs big) load.
Definition down : signal := Eval vm_compute in nth 1 (g_sigs big) load.
Definition second : message := Eval vm_compute in nth 2 (d_msgs bad_db) engine.
Definition same2 : signal := Eval vm_compute in nth 0 (g_sigs second) load.
Lemma bad_declared : forall m sg, In m (d_msgs bad_db) -> In sg (g_sigs m) -> declared sg.
Proof. intros m sg. apply (scanned_declared isort bad_text bad_db); [apply isort_sorts|]. vm_compute. reflexivity. Qed.

(** raw 0 of a 32-bit signal with offset -100 becomes 4294967196 *)
Theorem C16_fromS_refuted : exists e msg sg F O m z p, scaled_in e msg sg /\ declared sg /\ int_scaled sg F O /\
  int_literal F /\ int_literal O /\ carries (s_signed sg) (s_len sg) z /\ holds_raw false m sg z /\ can_hold (s_typephys sg) (z * F + O) /\
  eval (e_evals e) (e_ctx e) m [] (phys_expr e sg) = Ok (VI (s_typephys sg) p) /\ p <> (z * F + O)%Z.
Proof.
  exists bad, big, low, 1%Z, (-100)%Z, (mk_mem (struct_of false big []) "_d" []), 0%Z. eexists.
  split; [apply scaled_inb; [apply bad_program|vm_compute; tauto|vm_compute; tauto|vm_compute; reflexivity]|].
  split; [apply (bad_declared big); vm_compute; tauto|]. split; [split; [reflexivity|vm_compute; auto]|].
  split; [vm_compute; auto|]. split; [vm_compute; auto|]. split; [vm_compute; split; congruence|]. split; [exists U32; vm_compute; auto|].
  split; [vm_compute; split; congruence|]. split; [vm_compute; reflexivity|]. discriminate.
Qed.
Print Assumptions C16_fromS_refuted.
(** 100000 - x in an unsigned type: raw 2 comes back as 0 *)
Theorem C17_roundtrip_refuted : exists e msg sg F O m m' z p r, scaled_in e msg sg /\ declared sg /\ int_scaled sg F O /\
  int_literal F /\ int_literal O /\ F <> 0%Z /\ carries (s_signed sg) (s_len sg) z /\ holds_raw false m sg z /\
  eval (e_evals e) (e_ctx e) m [] (phys_expr e sg) = Ok p /\ p = VI (s_typephys sg) (z * F + O) /\ holds m' (s_namefloat sg) (phys_ty sg) p /\
  eval (e_evals e) (e_ctx e) m' [] (raw_expr e sg) = Ok (VI (s_typero sg) r) /\ r <> z.
Proof.
  exists bad, big, down, (-1)%Z, 100000%Z, (mk_mem (struct_of false big [("Down_ro", 2%Z)]) "_d" []),
    (mk_mem [("_m->Down_phys", (LInt U32, VI U32 99998))] "_d" []), 2%Z. do 2 eexists.
  split; [apply scaled_inb; [apply bad_program|vm_compute; tauto|vm_compute; tauto|vm_compute; reflexivity]|].
  split; [apply (bad_declared big); vm_compute; tauto|]. split; [split; [reflexivity|vm_compute; auto]|].
  split; [vm_compute; auto|]. split; [vm_compute; auto|]. split; [discriminate|]. split; [vm_compute; split; congruence|].
  split; [exists U8; vm_compute; auto|]. split; [vm_compute; reflexivity|]. split; [reflexivity|]. split; [vm_compute; auto|].
  split; [vm_compute; reflexivity|]. discriminate.
Qed.
Print Assumptions C17_roundtrip_refuted.

(** ** C18.  Full claim: without [own_scaling] and [once], which are part of [scaled_in].  A floating factor is printed
    with nine digits, so it is the declared one up to 1.05e-9 (C44); an integer factor is the declared one. *)
Theorem C18_own_scaling_partial : forall e msg sg F O, scaled_in e msg sg -> is_double (s_factor sg) -> is_double (s_offset sg) ->
  dval (s_factor sg) = Some F -> dval (s_offset sg) = Some O ->
  (s_double sg = false -> exists f o, int_scaled sg f o) ->
  exists F' O' fb tb ef et,
    lookup (fromS_name e sg) (e_macros e) = Some {| m_params := Some ["x"]; m_body := fb |} /\
    lookup (toS_name e sg) (e_macros e) = Some {| m_params := Some ["x"]; m_body := tb |} /\
    parse_expr_toks fb = Some ef /\ parse_expr_toks tb = Some et /\
    from_form (EId "x") F' O' ef /\ to_form (EId "x") (print_type (s_typero sg)) F' O' et /\
    (Qabs (F' - F) < 105 # 10 ^ 11)%Q /\ (Qabs (O' - O) < 105 # 10 ^ 11)%Q /\ (s_double sg = false -> F' == F /\ O' == O)%Q.
Proof. exact conv_forms. Qed.
Print Assumptions C18_own_scaling_partial.
Definition first : message := Eval vm_compute in nth 1 (d_msgs bad_db) engine.
Definition rate : signal := Eval vm_compute in nth 1 (g_sigs first) load.
Example C18_case : scaled_in bad first rate /\ is_double (s_factor rate) /\ is_double (s_offset rate) /\ s_double rate = true /\
  dval (s_factor rate) = Some (7205759403792794 # 2 ^ 56)%Q.
Proof.
  split; [apply scaled_inb; [apply bad_program|vm_compute; tauto|vm_compute; tauto|vm_compute; reflexivity]|].
  split; [reflexivity|]. split; [reflexivity|]. split; [reflexivity|]. vm_compute. reflexivity.
Qed.
(** the signal Same of the message Second is scaled by 3, its macro multiplies by 2 *)
Theorem C18_own_scaling_refuted : exists e msg sg fb ef, program e /\ In msg (d_msgs (e_db e)) /\ g_notempty msg = true /\ In sg (g_sigs msg) /\
  s_simple sg = false /\ int_scaled sg 3 0 /\
  lookup (fromS_name e sg) (e_macros e) = Some {| m_params := Some ["x"]; m_body := fb |} /\ parse_expr_toks fb = Some ef /\
  from_form (EId "x") (2 # 1) 0 ef.
Proof.
  exists bad, second, same2. do 2 eexists. split; [apply bad_program|]. split; [vm_compute; tauto|]. split; [reflexivity|]. split; [vm_compute; tauto|].
  split; [reflexivity|]. split; [split; [reflexivity|vm_compute; auto]|]. split; [vm_compute; reflexivity|]. split; [vm_compute; reflexivity|].
  apply ff_mul; reflexivity.
Qed.
Print Assumptions C18_own_scaling_refuted.

(** ** C44.  Full claim: for every double.  Missing: infinities and NaN, which have no value to be near to; see below. *)
Theorem C44_printed_number_partial : forall d q, is_double d -> dval d = Some q ->
  exists neg a b n, decimal (prt_double d 9) neg a b n /\ (1 <= String.length b <= 9)%nat /\
    (Qabs (decimal_value neg b n - q) < 105 # 10 ^ 11)%Q /\
    (too_small d = false -> (~ q == 0)%Q -> n <> 0%N).
Proof. exact printed_number. Qed.
Print Assumptions C44_printed_number_partial.
Example C44_case : is_double (s_factor rate) /\ prt_double (s_factor rate) 9 = "0.1" /\ prt_double (s_offset rate) 9 = "-40.0" /\ too_small (s_factor rate) = false.
Proof. repeat split; vm_compute; reflexivity. Qed.
(** an accepted factor that is printed as something else than a number *)
Theorem C44_printed_number_refuted : exists line sg, parse_signal_line line = Ok (Some sg) /\
  line = " SG_ Huge : 0|8@1+ (1e999,0.5) [0|0] """" GW" /\ prt_double (s_factor sg) 9 = "inf.0" /\
  ~ exists neg a b n, decimal (prt_double (s_factor sg) 9) neg a b n.
Proof.
  exists " SG_ Huge : 0|8@1+ (1e999,0.5) [0|0] """" GW". eexists. split; [vm_compute; reflexivity|]. split; [reflexivity|]. split; [vm_compute; reflexivity|].
  intros (neg & a & b & n & E & NE & DA & _). change (prt_double _ 9) with "inf.0" in E. destruct neg; [discriminate E|].
  destruct a as [|c a]; [congruence|]. injection E as <- _. discriminate DA.
Qed.
Print Assumptions C44_printed_number_refuted.
