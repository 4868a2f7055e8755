(** What the conversion macros compute. *)

From Coq Require Import ZArith NArith QArith Qabs List String Ascii Bool Lia ZifyBool Permutation.
From Coq Require Import Floats.SpecFloat.
From Verif Require Import Base Dbl CSyntax CSem CRun Types Formatter SigPrinter Settings MainGen App CodecSpec MsgSpec CSemLemmas DriverSpec HeaderSpec HeaderProof
  LineParser Scanner ScanSpec ScanLemmas ScanLines ScanPass1 ScanThms CodecEnv ConvSpec ConvEnv SigTypes DblPrint ConvMacros.
Import ListNotations.
Open Scope Z_scope.

(** *** Declared signals *)
Lemma declared_types : forall sg, declared sg -> 1 <= s_len sg ->
  type_facts (s_signed sg) (s_len sg) (s_double sg) (s_factor sg) (s_offset sg) (s_typero sg) (s_typephys sg).
Proof.
  intros sg (line & sg0 & P & S) L. destruct S as (_ & _ & _ & _ & S5 & S6 & _ & S8 & S9 & _ & S11 & S12 & S13 & _).
  rewrite S5, S6, S8, S9, S11, S12, S13. apply (line_types line); auto. lia.
Qed.
Lemma sig_of_line : forall l sg, In sg (sig_of l) -> parse_signal_line l = Ok (Some sg).
Proof.
  intros l sg H. unfold sig_of in H. destruct (is_signal_line l); [|contradiction]. destruct (parse_signal_line l) as [[s|]| |]; try contradiction.
  destruct H as [->|[]]. reflexivity.
Qed.
Lemma accepted_line : forall ls sg, In sg (accepted ls) -> exists l, parse_signal_line l = Ok (Some sg).
Proof. intros ls sg H. unfold accepted in H. apply in_flat_map in H as (l & _ & H). exists l. now apply sig_of_line. Qed.
Lemma scanned_declared : forall srt text d m sg, sorts srt -> scan srt text = Ok d -> In m (d_msgs d) -> In sg (g_sigs m) -> declared sg.
Proof.
  intros srt text d m sg SR H IM IS. pose proof (scan_messages _ _ _ H) as F.
  assert (exists g m0 sigs, made_from srt m g m0 sigs) as (g & m0 & sigs & [_ _ _ _ _ SO SS _ _ _]).
  { clear - F IM. induction F as [|x y a b R F IH]; [contradiction|]. destruct IM as [->|IM]; [|auto]. destruct R as (m0 & sigs & R). eauto. }
  assert (exists sg0, In sg0 sigs /\ same_signal sg sg0) as (sg0 & I0 & S0).
  { clear - SS IS. induction SS as [|x y a b R F IH]; [contradiction|]. destruct IS as [->|IS]; [exists y; split; [now left|exact R]|].
    destruct (IH IS) as (z & I & S). exists z. split; [now right|exact S]. }
  rewrite SO in I0. assert (I1 : In sg0 (accepted (fst g :: snd g))) by (eapply Permutation_in; [apply SR|exact I0]).
  destruct (accepted_line _ _ I1) as (l & P). exists l, sg0. auto.
Qed.

(** *** Evaluation *)
Lemma hold_fits : forall t z, can_hold t z <-> fits t z = true.
Proof. intros t z. unfold can_hold, fits, ty_min, ty_max. destruct (is_signed t); lia. Qed.
Lemma hold_conv : forall t z, can_hold t z -> conv t z = z.
Proof. intros t z H. apply conv_id, hold_fits, H. Qed.

Lemma eval_call1 : forall n c m f x l v b body,
  lookup f (c_macros c) = Some {| m_params := Some ["x"%string]; m_body := b |} -> parse_expr_toks b = Some body ->
  m_scal m (member x) = Some (l, v) -> m_arr m (member x) = None ->
  eval (S n) c m [] (ECall f [EFld true (EId "_m") x]) = eval n c m [("x"%string, v)] body.
Proof.
  intros n c m f x l v b body LK PB MS MA. cbn [eval path]. change ("_m" ++ "->" ++ x)%string with (member x).
  rewrite MA, MS. cbn [bind]. rewrite LK, PB. reflexivity.
Qed.
Lemma ev_x : forall n c m v, eval n c m [("x"%string, v)] (EId "x") = Ok v.
Proof. intros [|n] c m v; reflexivity. Qed.
Lemma ev_lit : forall n c m loc z, int_literal z -> eval n c m loc (int_lit z) = Ok (VI I32 z).
Proof.
  intros n c m loc z H. unfold int_literal in H. unfold int_lit. replace (Z.abs z <? 2 ^ 31) with true by lia.
  destruct (z <? 0) eqn:E; [|destruct n; reflexivity].
  assert (X : un_val UNeg (VI I32 (- z)) = Ok (VI I32 z)).
  { cbn [un_val promote]. rewrite (hold_conv I32) by (unfold can_hold; cbn; lia). rewrite Z.opp_involutive. unfold arith. cbn [is_signed].
    replace (fits I32 z) with true; [reflexivity|]. symmetry. apply hold_fits. unfold can_hold. cbn. lia. }
  destruct n; cbn [eval bind]; exact X.
Qed.
Definition plain_op (o : binop) : bool := match o with OMul | OAdd | OSub | ODiv => true | _ => false end.
Lemma ev_bin : forall n c m loc o a b v w, plain_op o = true -> eval n c m loc a = Ok v -> eval n c m loc b = Ok w ->
  eval n c m loc (EBin o a b) = bin_val o v w.
Proof. intros n c m loc o a b v w P A B. destruct n, o; try discriminate P; cbn [eval] in *; rewrite A, B; reflexivity. Qed.
Lemma ev_cast : forall n c m loc t a v z, c_types c = std_types -> eval n c m loc a = Ok (VI t z) ->
  eval n c m loc (EUn (UCast (print_type v)) a) = Ok (VI v (conv v z)).
Proof. intros n c m loc t a v z T A. destruct n, v; cbn [eval] in *; rewrite A, T; reflexivity. Qed.

Lemma usual_int : forall t, usual t I32 = promote t.
Proof. now intros []. Qed.
Lemma promote_twice : forall t, promote (promote t) = promote t.
Proof. now intros []. Qed.
Lemma promote_hold : forall t z, can_hold t z -> can_hold (promote t) z.
Proof. intros t z H. unfold can_hold in *. destruct t; cbn in *; lia. Qed.
Lemma int_hold : forall t z, is_signed (promote t) = true -> int_literal z -> can_hold (promote t) z.
Proof. intros t z S H. unfold can_hold, int_literal in *. destruct t; try discriminate S; cbn in *; lia. Qed.

Lemma bin_arith : forall o t z y, plain_op o = true -> o <> ODiv ->
  bin_val o (VI t z) (VI I32 y) = arith (promote t)
    (match o with OMul => conv (promote t) z * conv (promote t) y | OAdd => conv (promote t) z + conv (promote t) y
     | _ => conv (promote t) z - conv (promote t) y end).
Proof. intros o t z y P N. cbn [bin_val]. unfold int_op. rewrite usual_int. destruct o; try discriminate P; try contradiction; reflexivity. Qed.
Lemma arith_signed : forall t z, is_signed t = true -> can_hold t z -> arith t z = Ok (VI t z).
Proof. intros t z S H. unfold arith. rewrite S. apply hold_fits in H. now rewrite H. Qed.
Lemma arith_unsigned : forall t z, is_signed t = false -> arith t z = Ok (VI t (z mod 2 ^ width t)).
Proof. intros t z S. unfold arith, conv. now rewrite S. Qed.
Lemma conv_unsigned : forall t z, is_signed t = false -> conv t z = z mod 2 ^ width t.
Proof. intros t z S. unfold conv. now rewrite S. Qed.

(** products and sums *)
Definition op_val (o : binop) (a b : Z) : Z := match o with OMul => a * b | OAdd => a + b | _ => a - b end.
Lemma bin_signed : forall o t z y, plain_op o = true -> o <> ODiv -> is_signed (promote t) = true -> can_hold (promote t) z -> int_literal y ->
  can_hold (promote t) (op_val o z y) -> bin_val o (VI t z) (VI I32 y) = Ok (VI (promote t) (op_val o z y)).
Proof.
  intros o t z y P N S Z Y H. rewrite bin_arith by auto. rewrite !hold_conv by (auto using int_hold).
  rewrite <- (arith_signed (promote t) (op_val o z y)) by auto. destruct o; try discriminate P; try contradiction; reflexivity.
Qed.
Lemma wpos : forall t, 0 < 2 ^ width t.
Proof. now intros []. Qed.
Lemma bin_unsigned : forall o t z y, plain_op o = true -> o <> ODiv -> is_signed (promote t) = false ->
  bin_val o (VI t z) (VI I32 y) = Ok (VI (promote t) (op_val o z y mod 2 ^ width (promote t))).
Proof.
  intros o t z y P N S. rewrite bin_arith by auto. rewrite arith_unsigned by auto. rewrite !conv_unsigned by auto. pose proof (wpos (promote t)).
  destruct o; try discriminate P; try contradiction; cbn [op_val]; do 2 f_equal.
  - now rewrite <- Zmult_mod.
  - now rewrite <- Zplus_mod.
  - now rewrite <- Zminus_mod.
Qed.

(** a wrapped value keeps its value modulo smaller powers *)
Lemma conv_mod : forall t w y, width t <= w -> conv t (y mod 2 ^ w) = conv t y.
Proof.
  intros t w y H. assert (M : (y mod 2 ^ w) mod 2 ^ width t = y mod 2 ^ width t).
  { assert (W : 0 < width t) by (destruct t; cbn; lia). replace w with (width t + (w - width t)) by lia. rewrite Z.pow_add_r by lia.
    pose proof (wpos t). rewrite Z.rem_mul_r by (try lia; apply Z.pow_nonzero; lia). rewrite Z.add_mod, Z.mul_comm, Z.mod_mul by lia.
    rewrite Z.add_0_r, !Z.mod_mod by lia. reflexivity. }
  unfold conv, swrap, uwrap. rewrite M. reflexivity.
Qed.

(** type of the value in the member of a signal *)
Lemma field_value : forall bits sg t z, declared sg -> 1 <= s_len sg -> to_obj (field_ty bits sg) (VI t z) = Ok (VI t z) -> promote t = promote (s_typero sg).
Proof.
  intros bits sg t z D L H. unfold field_ty in H. destruct (bits && (s_len sg <? 8)) eqn:B.
  - pose proof (declared_types sg D L) as T.
    assert (W : width (s_typero sg) = 8).
    { assert (width (s_typero sg) <= 8). { pose proof (tf_least _ _ _ _ _ _ _ T (if s_signed sg then I8 else U8)) as Q. destruct (s_signed sg); cbn [is_signed width] in Q; apply Q; auto; lia. }
      destruct (s_typero sg); cbn in *; lia. }
    apply andb_true_iff in B as [_ B]. cbn [to_obj to_int bind] in H. replace (s_len sg <? 32) with true in H by lia. rewrite orb_true_r in H.
    assert (t = I32) as -> by congruence. destruct (s_typero sg); cbn in W; try lia; reflexivity.
  - cbn [to_obj to_int bind] in H. assert (t = s_typero sg) as -> by congruence. reflexivity.
Qed.

Lemma lit_int_of : forall sg d e z, s_double sg = false -> lit_of sg d e -> int_val d z -> e = int_lit z.
Proof.
  intros sg d e z D L V. unfold lit_of in L. rewrite D in L. destruct L as (y & T & _ & ->). rewrite (int_val_trunc _ _ V) in T.
  assert (y = z) by congruence. now subst.
Qed.

(** offset 0 and factor 1 are left out *)
Lemma deqb_zero : forall d z, deqb d (S754_zero false) = true -> int_val d z -> z = 0.
Proof. intros [s|s| |s m e] z H V; try destruct s; try discriminate H; exact V. Qed.
Lemma deqb_one : forall d z, deqb d (dbl_of_Z 1) = true -> int_val d z -> z = 1.
Proof.
  intros d z H V. change (dbl_of_Z 1) with (S754_finite false 4503599627370496 (-52)) in H.
  destruct d as [s|s| |s m e]; try destruct s; try discriminate H. unfold deqb, SFcompare in H.
  destruct (Z.compare_spec e (-52)) as [->|L|L]; try discriminate H. destruct (Pos.compare_cont Eq m 4503599627370496) eqn:C; try discriminate H.
  apply Pos.compare_eq in C. subst m. cbn [int_val] in V. cbn in V. lia.
Qed.

Section Scaled.
Variables (e : env) (msg : message) (sg : signal) (F O : Z).
Hypothesis SC : scaled_in e msg sg.
Hypothesis IN : int_scaled sg F O.
Hypothesis DC : declared sg.
Hypothesis LN : 1 <= s_len sg.
Hypothesis LF : int_literal F.
Hypothesis LO : int_literal O.

Lemma int_conv : exists fb tb,
  lookup (fromS_name e sg) (e_macros e) = Some {| m_params := Some ["x"%string]; m_body := fb |} /\
  lookup (toS_name e sg) (e_macros e) = Some {| m_params := Some ["x"%string]; m_body := tb |} /\
  parse_expr_toks fb = Some (fst (conv_exprs sg (int_lit F) (int_lit O))) /\
  parse_expr_toks tb = Some (snd (conv_exprs sg (int_lit F) (int_lit O))).
Proof.
  destruct IN as (D & VF & VO). destruct (found_conv e msg sg SC) as (ef & eo & fb & tb & L1 & L2 & A & B & C & E); [congruence|].
  pose proof (lit_int_of _ _ _ _ D L1 VF). pose proof (lit_int_of _ _ _ _ D L2 VO). subst ef eo. exists fb, tb. auto.
Qed.

(** the three shapes *)
Lemma shapes : (O = 0 /\ conv_exprs sg (int_lit F) (int_lit O) = (EBin OMul (EId "x") (int_lit F), EUn (UCast (print_type (s_typero sg))) (EBin ODiv (EId "x") (int_lit F)))) \/
  (F = 1 /\ conv_exprs sg (int_lit F) (int_lit O) = (EBin OAdd (EId "x") (int_lit O), EUn (UCast (print_type (s_typero sg))) (EBin OSub (EId "x") (int_lit O)))) \/
  conv_exprs sg (int_lit F) (int_lit O) = (EBin OAdd (EBin OMul (EId "x") (int_lit F)) (int_lit O),
     EUn (UCast (print_type (s_typero sg))) (EBin ODiv (EBin OSub (EId "x") (int_lit O)) (int_lit F))).
Proof.
  destruct IN as (D & VF & VO). unfold conv_exprs. rewrite D. destruct (deqb (s_offset sg) _) eqn:Z.
  - left. split; [eapply deqb_zero; eauto|reflexivity].
  - destruct (deqb (s_factor sg) _) eqn:W; [right; left; split; [eapply deqb_one; eauto|reflexivity]|right; right; reflexivity].
Qed.

Theorem fromS_exact : forall bits m z, carries (s_signed sg) (s_len sg) z -> holds_raw bits m sg z ->
  can_hold (s_typephys sg) (z * F + O) -> no_wrap sg F O z ->
  eval (e_evals e) (e_ctx e) m [] (phys_expr e sg) = Ok (VI (s_typephys sg) (z * F + O)).
Proof.
  intros bits m z CA (t & MS & TO & MA) PH NW. destruct int_conv as (fb & tb & LK & _ & PB & _).
  pose proof (field_value bits sg t z DC LN TO) as PT. pose proof (declared_types sg DC LN) as TF.
  assert (HZ : can_hold (promote t) z).
  { rewrite PT. apply promote_hold. eapply width_carry; [exact LN|apply TF|apply TF|exact CA]. }
  unfold phys_expr. assert (IN2 := IN). destruct IN2 as (DD & VF & VO). rewrite DD. clear VF VO.
  assert (X : exists u y, eval (e_evals e) (e_ctx e) m [] (ECall (fromS_name e sg) [EFld true (EId "_m") (s_name sg)]) = Ok (VI u y) /\
                 conv (s_typephys sg) y = z * F + O).
  2: { destruct X as (u & y & X & Y). rewrite (ev_cast _ (e_ctx e) _ _ u _ (s_typephys sg) y eq_refl X). now rewrite Y. }
  unfold e_evals. rewrite (eval_call1 _ (e_ctx e) _ _ _ _ _ fb _ LK PB MS MA). generalize (S (e_fuel e)) as n. intros n.
  unfold no_wrap in NW. rewrite <- PT in NW. destruct (is_signed (promote t)) eqn:SG.
  - destruct NW as [N1 N2]. exists (promote t), (z * F + O). split; [|now apply hold_conv].
    destruct shapes as [[O0 E]|[[F1 E]|E]]; rewrite E; cbn [fst].
    + rewrite (ev_bin n _ m _ OMul _ _ _ _ eq_refl (ev_x n _ _ _) (ev_lit n _ m _ F LF)). rewrite bin_signed by (auto; discriminate).
      cbn [op_val]. rewrite O0, Z.add_0_r. reflexivity.
    + rewrite (ev_bin n _ m _ OAdd _ _ _ _ eq_refl (ev_x n _ _ _) (ev_lit n _ m _ O LO)).
      rewrite F1, Z.mul_1_r in *. rewrite bin_signed by (auto; discriminate). reflexivity.
    + assert (M : eval n (e_ctx e) m [("x"%string, VI t z)] (EBin OMul (EId "x") (int_lit F)) = Ok (VI (promote t) (z * F))).
      { rewrite (ev_bin n _ m _ OMul _ _ _ _ eq_refl (ev_x n _ _ _) (ev_lit n _ m _ F LF)). rewrite bin_signed by (auto; discriminate). reflexivity. }
      rewrite (ev_bin n _ m _ OAdd _ _ _ _ eq_refl M (ev_lit n _ m _ O LO)).
      rewrite bin_signed by (rewrite ?promote_twice; auto; discriminate). now rewrite promote_twice.
  - assert (W : conv (s_typephys sg) ((z * F + O) mod 2 ^ width (promote t)) = z * F + O).
    { destruct NW as [NW|NW]; [rewrite conv_mod by exact NW; now apply hold_conv|].
      unfold can_hold in NW. rewrite SG in NW. rewrite Z.mod_small by exact NW. now apply hold_conv. }
    exists (promote t), ((z * F + O) mod 2 ^ width (promote t)). split; [|exact W].
    destruct shapes as [[O0 E]|[[F1 E]|E]]; rewrite E; cbn [fst].
    + rewrite (ev_bin n _ m _ OMul _ _ _ _ eq_refl (ev_x n _ _ _) (ev_lit n _ m _ F LF)). rewrite bin_unsigned by (auto; discriminate).
      cbn [op_val]. rewrite O0, Z.add_0_r. reflexivity.
    + rewrite (ev_bin n _ m _ OAdd _ _ _ _ eq_refl (ev_x n _ _ _) (ev_lit n _ m _ O LO)).
      rewrite F1, Z.mul_1_r in *. rewrite bin_unsigned by (auto; discriminate). reflexivity.
    + assert (M : eval n (e_ctx e) m [("x"%string, VI t z)] (EBin OMul (EId "x") (int_lit F)) = Ok (VI (promote t) ((z * F) mod 2 ^ width (promote t)))).
      { rewrite (ev_bin n _ m _ OMul _ _ _ _ eq_refl (ev_x n _ _ _) (ev_lit n _ m _ F LF)). rewrite bin_unsigned by (auto; discriminate). reflexivity. }
      rewrite (ev_bin n _ m _ OAdd _ _ _ _ eq_refl M (ev_lit n _ m _ O LO)).
      rewrite bin_unsigned by (rewrite ?promote_twice; auto; discriminate). rewrite promote_twice. cbn [op_val].
      pose proof (wpos (promote t)). rewrite Z.add_mod_idemp_l by lia. reflexivity.
Qed.

Lemma div_back : forall t z, can_hold t (z * F) -> (is_signed t = true -> can_hold t z) -> F <> 0 -> (is_signed t = false -> 0 < F) -> promote t = t ->
  bin_val ODiv (VI t (z * F)) (VI I32 F) = Ok (VI t z).
Proof.
  intros t z H HT NZ U P. cbn [bin_val]. unfold int_op. rewrite usual_int, P. rewrite (hold_conv t (z * F)) by exact H.
  assert (CF : conv t F = F).
  { apply hold_conv. destruct (is_signed t) eqn:S; [rewrite <- P; apply int_hold; [now rewrite P|exact LF]|].
    specialize (U eq_refl). unfold int_literal in LF. unfold can_hold. rewrite S. destruct t; try discriminate P; cbn in *; try discriminate; lia. }
  rewrite CF. destruct (Z.eqb_spec F 0) as [|_]; [contradiction|]. rewrite Z.quot_mul by exact NZ.
  assert (HZ : can_hold t z).
  { destruct (is_signed t) eqn:S; [auto|]. unfold can_hold in *. rewrite S in *. specialize (U eq_refl). nia. }
  destruct (is_signed t) eqn:S; [now apply arith_signed|]. rewrite arith_unsigned by exact S. unfold can_hold in HZ. rewrite S in HZ.
  now rewrite Z.mod_small.
Qed.

Theorem toS_exact : forall m z, carries (s_signed sg) (s_len sg) z ->
  holds m (s_namefloat sg) (phys_ty sg) (VI (s_typephys sg) (z * F + O)) -> can_hold (s_typephys sg) (z * F + O) -> no_wrap_back sg F z ->
  eval (e_evals e) (e_ctx e) m [] (raw_expr e sg) = Ok (VI (s_typero sg) z).
Proof.
  intros m z CA (MS & _ & MA) PH NW. destruct int_conv as (fb & tb & _ & LK & _ & PB).
  pose proof (declared_types sg DC LN) as TF. assert (IN' := IN). destruct IN' as (DD & VF & VO).
  assert (FZ : F <> 0) by (intros ->; exact (tf_nonzero _ _ _ _ _ _ _ TF VF)).
  assert (HR : can_hold (s_typero sg) z) by (eapply width_carry; [exact LN|apply TF|apply TF|exact CA]).
  set (t := s_typephys sg) in *. assert (HP : can_hold (promote t) (z * F + O)) by now apply promote_hold.
  assert (UN : is_signed (promote t) = false -> 0 <= z /\ 0 <= O /\ 0 < F).
  { intros S. assert (S' : is_signed t = false) by (destruct t; try discriminate S; reflexivity).
    destruct (tf_unsigned _ _ _ _ _ _ _ TF DD S') as [US UO]. rewrite US in CA. cbn [carries] in CA. unfold no_wrap_back in NW. fold t in NW. rewrite S in NW.
    split; [lia|]. split; [now apply UO|exact NW]. }
  assert (HM : can_hold (promote t) (z * F)).
  { destruct (is_signed (promote t)) eqn:S; [unfold no_wrap_back in NW; fold t in NW; rewrite S in NW; apply NW|].
    destruct (UN eq_refl) as (U1 & U2 & U3). unfold can_hold in *. rewrite S in *. nia. }
  assert (HT : is_signed (promote t) = true -> can_hold (promote t) z) by (intros S; unfold no_wrap_back in NW; fold t in NW; rewrite S in NW; apply NW).
  assert (X : eval (e_evals e) (e_ctx e) m [] (ECall (toS_name e sg) [EFld true (EId "_m") (s_namefloat sg)]) = Ok (VI (s_typero sg) z)).
  2: { unfold raw_expr. rewrite (ev_cast _ (e_ctx e) _ _ _ _ (s_typero sg) z eq_refl X). now rewrite hold_conv. }
  unfold e_evals. rewrite (eval_call1 _ (e_ctx e) _ _ _ _ _ tb _ LK PB MS MA). generalize (S (e_fuel e)) as n. intros n.
  assert (SUB : forall k, eval n (e_ctx e) m [("x"%string, VI t (z * F + O))] (EBin OSub (EId "x") (int_lit O)) = Ok (VI k (z * F)) ->
     k = promote t -> eval n (e_ctx e) m [("x"%string, VI t (z * F + O))] (EBin ODiv (EBin OSub (EId "x") (int_lit O)) (int_lit F)) = Ok (VI (promote t) z)).
  { intros k E ->. rewrite (ev_bin n _ m _ ODiv _ _ _ _ eq_refl E (ev_lit n _ m _ F LF)). apply div_back; auto; [|apply promote_twice].
    intros S. now destruct (UN S). }
  assert (SB : eval n (e_ctx e) m [("x"%string, VI t (z * F + O))] (EBin OSub (EId "x") (int_lit O)) = Ok (VI (promote t) (z * F))).
  { rewrite (ev_bin n _ m _ OSub _ _ _ _ eq_refl (ev_x n _ _ _) (ev_lit n _ m _ O LO)). destruct (is_signed (promote t)) eqn:S.
    - rewrite bin_signed; auto; try discriminate; cbn [op_val]; replace (z * F + O - O) with (z * F) by lia; auto.
    - rewrite bin_unsigned by (auto; discriminate). cbn [op_val]. replace (z * F + O - O) with (z * F) by lia.
      unfold can_hold in HM. rewrite S in HM. now rewrite Z.mod_small. }
  destruct shapes as [[O0 E]|[[F1 E]|E]]; rewrite E; cbn [snd].
  - assert (DV : eval n (e_ctx e) m [("x"%string, VI t (z * F + O))] (EBin ODiv (EId "x") (int_lit F)) = Ok (VI (promote t) z)).
    { rewrite (ev_bin n _ m _ ODiv _ _ _ _ eq_refl (ev_x n _ _ _) (ev_lit n _ m _ F LF)). rewrite O0, Z.add_0_r in *.
      rewrite <- (div_back (promote t) z); auto; [|intros S; now destruct (UN S)|apply promote_twice].
      cbn [bin_val]. unfold int_op. rewrite !usual_int, promote_twice. reflexivity. }
    rewrite (ev_cast _ (e_ctx e) _ _ _ _ (s_typero sg) z eq_refl DV). now rewrite hold_conv.
  - rewrite F1, Z.mul_1_r in SB, HM |- *. rewrite (ev_cast _ (e_ctx e) _ _ _ _ (s_typero sg) z eq_refl SB). now rewrite hold_conv.
  - rewrite (ev_cast _ (e_ctx e) _ _ _ _ (s_typero sg) z eq_refl (SUB _ SB eq_refl)). now rewrite hold_conv.
Qed.
End Scaled.

(** ** The macros in form *)
Lemma int_dval : forall d z q, int_val d z -> dval d = Some q -> (q == inject_Z z)%Q.
Proof.
  intros [s|s| |s m x] z q V Q; try contradiction; cbn [int_val dval] in V, Q.
  - assert (q = 0%Q) as -> by congruence. subst z. reflexivity.
  - destruct x as [|p|p]; cbn [Z.leb Z.compare Z.opp] in V; apply some_inj in Q; subst q.
    + change (0 <=? 0) with true in V. cbv iota in V. rewrite <- V. reflexivity.
    + rewrite <- V. reflexivity.
    + unfold inject_Z, Qeq, Qnum, Qden. rewrite V, Z.mul_1_r, Pos2Z.inj_pow. reflexivity.
Qed.

Lemma conv_forms : forall e msg sg F O, scaled_in e msg sg -> is_double (s_factor sg) -> is_double (s_offset sg) ->
  dval (s_factor sg) = Some F -> dval (s_offset sg) = Some O ->
  (s_double sg = false -> exists f o, int_scaled sg f o) ->
  exists F' O' fb tb ef et,
    lookup (fromS_name e sg) (e_macros e) = Some {| m_params := Some ["x"%string]; m_body := fb |} /\
    lookup (toS_name e sg) (e_macros e) = Some {| m_params := Some ["x"%string]; m_body := tb |} /\
    parse_expr_toks fb = Some ef /\ parse_expr_toks tb = Some et /\
    from_form (EId "x") F' O' ef /\ to_form (EId "x") (print_type (s_typero sg)) F' O' et /\
    (Qabs (F' - F) < 105 # 10 ^ 11)%Q /\ (Qabs (O' - O) < 105 # 10 ^ 11)%Q /\ (s_double sg = false -> F' == F /\ O' == O)%Q.
Proof.
  intros e msg sg F O SC I1 I2 V1 V2 IS. destruct (found_conv e msg sg SC) as (ef & eo & fb & tb & L1 & L2 & A & B & C & E).
  { intros _. rewrite V1, V2. repeat split; auto; discriminate. }
  assert (X : exists F' O', lit_val ef = Some F' /\ lit_val eo = Some O' /\ (Qabs (F' - F) < 105 # 10 ^ 11)%Q /\ (Qabs (O' - O) < 105 # 10 ^ 11)%Q /\
    (s_double sg = false -> exists f o, int_scaled sg f o /\ F' = inject_Z f /\ O' = inject_Z o)).
  { destruct (s_double sg) eqn:D.
    - unfold lit_of in L1, L2. rewrite D in L1, L2. destruct L1 as (n1 & a1 & b1 & k1 & D1 & _ & Q1 & ->). destruct L2 as (n2 & a2 & b2 & k2 & D2 & _ & Q2 & ->).
      destruct (lit_flt_val _ _ _ _ _ D1) as (F' & LF & ->). destruct (lit_flt_val _ _ _ _ _ D2) as (O' & LO & ->).
      do 2 eexists. split; [exact LF|]. split; [exact LO|]. split; [auto|]. split; [auto|]. discriminate.
    - destruct (IS eq_refl) as (f & o & I). assert (I' := I). destruct I' as (_ & VF & VO).
      rewrite (lit_int_of _ _ _ _ D L1 VF), (lit_int_of _ _ _ _ D L2 VO). exists (inject_Z f), (inject_Z o).
      split; [apply lit_int_val|]. split; [apply lit_int_val|].
      split; [rewrite (int_dval _ _ _ VF V1); setoid_replace (inject_Z f - inject_Z f)%Q with 0%Q by ring; reflexivity|].
      split; [rewrite (int_dval _ _ _ VO V2); setoid_replace (inject_Z o - inject_Z o)%Q with 0%Q by ring; reflexivity|].
      intros _. exists f, o. auto. }
  destruct X as (F' & O' & LF & LO & CF & CO & EX). exists F', O', fb, tb, (fst (conv_exprs sg ef eo)), (snd (conv_exprs sg ef eo)).
  split; [exact A|]. split; [exact B|]. split; [exact C|]. split; [exact E|].
  assert (FF : from_form (EId "x") F' O' (fst (conv_exprs sg ef eo)) /\ to_form (EId "x") (print_type (s_typero sg)) F' O' (snd (conv_exprs sg ef eo))).
  { unfold conv_exprs. destruct (s_double sg) eqn:D; [split; [apply ff_both|apply tf_both]; assumption|].
    destruct (EX eq_refl) as (f & o & (_ & VF & VO) & EF & EO).
    destruct (deqb (s_offset sg) _) eqn:Z.
    - assert (O' == 0)%Q by (rewrite EO, (deqb_zero _ _ Z VO); reflexivity). split; [apply ff_mul|apply tf_div]; assumption.
    - destruct (deqb (s_factor sg) _) eqn:W; [|split; [apply ff_both|apply tf_both]; assumption].
      assert (F' == 1)%Q by (rewrite EF, (deqb_one _ _ W VF); reflexivity). split; [apply ff_add|apply tf_sub]; assumption. }
  destruct FF as [FF TF]. split; [exact FF|]. split; [exact TF|]. split; [exact CF|]. split; [exact CO|].
  intros D. destruct (EX D) as (f & o & (_ & VF & VO) & -> & ->). split; symmetry; eapply int_dval; eauto.
Qed.
