(** The conversions of scaled signals, from the declarations to the emitted code. *)

From Coq Require Import ZArith NArith QArith Qabs List String Ascii Bool Lia ZifyBool.
From Coq Require Import Floats.SpecFloat.
From Verif Require Import Base Dbl CSyntax CSem CRun Types Formatter Settings MainGen App LineParser Scanner LexLemmas PPProof CodecSpec MsgSpec CSemLemmas
  DriverSpec HeaderSpec HeaderProof ScanSpec SigSpec SigTypes NamesSpec CodecEnv ConvSpec ConvEnv ConvMacros ConvThms DblPrint DblRound
  CodecFacts NamesThms DeclSpec DeclThms DeclTotal PhysSpec PhysType PhysBound.
Import ListNotations.
Open Scope Z_scope.

(** *** Numbers *)
Lemma num_double : forall n, is_double (num_value n).
Proof. intros [z|neg a b ex]; [apply normalize_double|apply decimal_double]. Qed.
Lemma moderate_size : forall x, (Qabs x <= big)%Q -> (Qabs x < p2 1023)%Q.
Proof. intros x H. eapply Qle_lt_trans; [exact H|]. vm_compute. reflexivity. Qed.
Lemma written_dec : forall neg a b ex, (written (NDec neg a b ex) == dec_val neg (digits_value (a ++ b)) (match ex with Some e => e | None => 0 end - Z.of_nat (String.length b)))%Q.
Proof. intros neg a b ex. unfold written, dec_val. destruct neg; unfold sgn; rewrite ?inject_Z_opp; ring. Qed.
Lemma num_near : forall n, moderate n -> near (num_value n) (written n).
Proof.
  intros [z|neg a b ex] M.
  - apply of_Z_near, moderate_size, M.
  - rewrite written_dec. apply decimal_near. rewrite <- written_dec. apply moderate_size, M.
Qed.

(** *** Literals *)
Definition lit_dbl (d : dbl) : dbl :=
  match prt_double d 9 with
  | String "-" r => SFopp (flt_const r)
  | t => flt_const t
  end.
Lemma dec_point : forall neg b n, (1 <= String.length b)%nat -> (decimal_value neg b n == dec_val neg n (- Z.of_nat (String.length b)))%Q.
Proof.
  intros neg b n L. unfold decimal_value, dec_val. destruct (String.length b) as [|k] eqn:E; [lia|].
  replace (Pos.of_nat (S k)) with (Pos.of_succ_nat k) by (apply Pos.of_nat_succ). change (- Z.of_nat (S k)) with (Zneg (Pos.of_succ_nat k)).
  rewrite ten_neg, Qmake_Qdiv. set (D := Pos.pow 10 (Pos.of_succ_nat k)).
  assert (N : ~ (inject_Z (Zpos D) == 0)%Q) by (apply Qnot_eq_sym, Qlt_not_eq; reflexivity).
  destruct neg; unfold sgn; rewrite ?inject_Z_opp; field; exact N.
Qed.
Lemma flt_value : forall a b n, a <> ""%string -> all_chars is_digit a = true -> num_dec 0 (a ++ b) = Some n ->
  flt_const (flt_text a b) = dbl_of_decimal false n (- Z.of_nat (String.length b)).
Proof. intros a b n NE DA V. unfold flt_const. change (flt_text a b) with (a ++ String "." b)%string. rewrite span_digits by auto. now rewrite V. Qed.
Lemma lit_eval : forall n c m loc d neg a b k, decimal (prt_double d 9) neg a b k -> eval n c m loc (flt_lit neg a b) = Ok (VD (lit_dbl d)).
Proof.
  intros n c m loc d neg a b k (T & NE & DA & DB & V). unfold lit_dbl. rewrite T. destruct neg; unfold flt_lit.
  - cbn [String.append]. destruct n; reflexivity.
  - cbn [String.append]. destruct a as [|h t]; [congruence|]. cbn [all_chars] in DA. apply andb_true_iff in DA as [H _]. cbn [String.append].
    destruct n; cbn [eval]; unfold flt_text; cbn [String.append]; (destruct h as [[] [] [] [] [] [] [] []]; try discriminate H; reflexivity).
Qed.
Lemma lit_near : forall d neg a b k, decimal (prt_double d 9) neg a b k -> (1 <= String.length b)%nat -> (Qabs (decimal_value neg b k) < p2 1023)%Q ->
  near (lit_dbl d) (decimal_value neg b k).
Proof.
  intros d neg a b k D L B. pose proof (lit_eval 0 (leaf_ctx []) {| m_scal := fun _ => None; m_arr := fun _ => None |} [] d neg a b k D) as E.
  destruct D as (_ & NE & DA & DB & V). rewrite dec_point in * by exact L.
  assert (X : lit_dbl d = if neg then SFopp (dbl_of_decimal false k (- Z.of_nat (String.length b))) else dbl_of_decimal false k (- Z.of_nat (String.length b))).
  { unfold flt_lit in E. destruct neg; cbn [eval bind un_val] in E; rewrite (flt_value a b k NE DA V) in E; congruence. }
  rewrite X. destruct neg.
  - assert (Y : (dec_val true k (- Z.of_nat (String.length b)) == - dec_val false k (- Z.of_nat (String.length b)))%Q) by (unfold dec_val, sgn; ring).
    rewrite Y in *. apply opp_near, decimal_near. now rewrite Qabs_opp in B.
  - now apply decimal_near.
Qed.
(** the literal of a declared number *)
Lemma lit_close : forall d x neg a b k, near d x -> (Qabs x <= big)%Q -> decimal (prt_double d 9) neg a b k -> (1 <= String.length b)%nat ->
  (forall q, dval d = Some q -> (Qabs (decimal_value neg b k - q) < 105 # 10 ^ 11)%Q) ->
  is_double (lit_dbl d) /\ exists w, dval (lit_dbl d) = Some w /\ (Qabs (w - x) <= prt2 + 3 * ulp * Qabs x)%Q.
Proof.
  intros d x neg a b k N B D L C. apply near_bound in N as (_ & v & V & NV). specialize (C v V). set (l := decimal_value neg b k) in *.
  assert (BL : (Qabs l < p2 1023)%Q).
  { pose proof (far _ _ _ NV) as X. assert (C' : (Qabs (l - v) <= prt)%Q) by (apply Qlt_le_weak; exact C). pose proof (far _ _ _ C') as Y.
    eapply Qle_lt_trans; [|exact p2_big]. eapply Qle_trans; [exact Y|]. eapply Qle_trans; [apply Qplus_le_compat; [exact X|apply Qle_refl]|].
    eapply Qle_trans; [apply Qplus_le_compat; [apply Qplus_le_compat; [exact B|apply Qplus_le_compat; [apply Qmult_le_compat_r; [exact B|discriminate]|apply Qle_refl]]|apply Qle_refl]|].
    vm_compute. discriminate. }
  pose proof (lit_near d neg a b k D L BL) as NL. apply near_bound in NL as (I & w & W & NW). split; [exact I|]. exists w. split; [exact W|].
  eapply printed_close; eauto.
Qed.

(** *** Scaling with doubles *)
Lemma ev_castd : forall n c m loc a d, c_types c = std_types -> eval n c m loc a = Ok (VD d) -> eval n c m loc (EUn (UCast "sigfloat_t") a) = Ok (VD d).
Proof. intros n c m loc a d T A. destruct n; cbn [eval] in *; rewrite A, T; reflexivity. Qed.
Lemma ev_casti : forall n c m loc a d v z, c_types c = std_types -> eval n c m loc a = Ok (VD d) -> dtrunc d = Some z -> can_hold v z ->
  eval n c m loc (EUn (UCast (print_type v)) a) = Ok (VI v z).
Proof.
  intros n c m loc a d v z T A D H. apply hold_fits in H. destruct n, v; cbn [eval] in *; rewrite A, T; cbn; rewrite D; cbn [bind]; rewrite H; reflexivity.
Qed.

Section Double.
Variables (e : env) (msg : message) (sg : signal) (F G : Q).
Hypothesis SC : scaled_in e msg sg.
Hypothesis DC : declared sg.
Hypothesis LN : 1 <= s_len sg.
Hypothesis DB : s_double sg = true.
Hypothesis NF : near (s_factor sg) F.
Hypothesis NG : near (s_offset sg) G.
Hypothesis BF : (Qabs F <= big)%Q.
Hypothesis BG : (Qabs G <= big)%Q.

Lemma dbl_conv : exists ef eo fb tb,
  (forall n c m loc, eval n c m loc ef = Ok (VD (lit_dbl (s_factor sg)))) /\ (forall n c m loc, eval n c m loc eo = Ok (VD (lit_dbl (s_offset sg)))) /\
  lookup (fromS_name e sg) (e_macros e) = Some {| m_params := Some ["x"%string]; m_body := fb |} /\
  lookup (toS_name e sg) (e_macros e) = Some {| m_params := Some ["x"%string]; m_body := tb |} /\
  parse_expr_toks fb = Some (EBin OAdd (EBin OMul (EId "x") ef) eo) /\
  parse_expr_toks tb = Some (EUn (UCast (print_type (s_typero sg))) (EBin ODiv (EBin OSub (EId "x") eo) ef)) /\
  (is_double (lit_dbl (s_factor sg)) /\ exists w, dval (lit_dbl (s_factor sg)) = Some w /\ (Qabs (w - F) <= prt2 + 3 * ulp * Qabs F)%Q) /\
  (is_double (lit_dbl (s_offset sg)) /\ exists w, dval (lit_dbl (s_offset sg)) = Some w /\ (Qabs (w - G) <= prt2 + 3 * ulp * Qabs G)%Q).
Proof.
  destruct (found_conv e msg sg SC) as (ef & eo & fb & tb & L1 & L2 & A & B & C & E).
  { intros _. destruct NF as (I1 & v1 & V1 & _), NG as (I2 & v2 & V2 & _). rewrite V1, V2. repeat split; auto; discriminate. }
  exists ef, eo, fb, tb. unfold lit_of in L1, L2. rewrite DB in L1, L2.
  destruct L1 as (n1 & a1 & b1 & k1 & D1 & T1 & Q1 & ->). destruct L2 as (n2 & a2 & b2 & k2 & D2 & T2 & Q2 & ->).
  unfold conv_exprs in C, E. rewrite DB in C, E. cbn [fst snd] in C, E.
  split; [intros; eapply lit_eval; eauto|]. split; [intros; eapply lit_eval; eauto|]. split; [exact A|]. split; [exact B|]. split; [exact C|]. split; [exact E|].
  split; eapply lit_close; eauto.
Qed.

Lemma raw_size : forall z, carries (s_signed sg) (s_len sg) z -> (Qabs (inject_Z z) <= inject_Z (2 ^ 64))%Q.
Proof.
  intros z C. pose proof (declared_types sg DC LN) as T. pose proof (tf_len _ _ _ _ _ _ _ T) as L. unfold carries in C.
  assert (B : Z.abs z <= 2 ^ 64).
  { destruct (s_signed sg); [assert (2 ^ (s_len sg - 1) <= 2 ^ 64) by (apply Z.pow_le_mono_r; lia)|assert (2 ^ s_len sg <= 2 ^ 64) by (apply Z.pow_le_mono_r; lia)]; lia. }
  change (Qabs (inject_Z z)) with (inject_Z (Z.abs z)). now rewrite <- Zle_Qle.
Qed.

Definition phys_dbl (z : Z) : dbl := dadd (dmul (dbl_of_Z z) (lit_dbl (s_factor sg))) (lit_dbl (s_offset sg)).
Lemma below : forall x k, (Qabs x < inject_Z (10 ^ k))%Q -> k <= 100 -> (Qabs x < p2 1023)%Q.
Proof.
  intros x k H K. eapply Qlt_trans; [exact H|]. eapply Qle_lt_trans; [|exact p2_big]. rewrite <- Zle_Qle. apply Z.pow_le_mono_r; lia.
Qed.
Theorem fromS_close : forall z, carries (s_signed sg) (s_len sg) z ->
  is_double (phys_dbl z) /\ exists q, dval (phys_dbl z) = Some q /\ (Qabs (q - (inject_Z z * F + G)) <= tolerance z F G)%Q.
Proof.
  intros z C. destruct dbl_conv as (_ & _ & _ & _ & _ & _ & _ & _ & _ & _ & (IF & wf & VF & CF) & (IG & wg & VG & CG)).
  pose proof (raw_size z C) as BZ.
  assert (NZ : near (dbl_of_Z z) (inject_Z z)).
  { apply of_Z_near. eapply Qle_lt_trans; [exact BZ|]. vm_compute. reflexivity. }
  apply near_bound in NZ as (IZ & zd & VZ & HZ).
  pose proof (prod_size _ _ _ _ BZ BF HZ CF) as PS. pose proof (mul_near _ _ _ _ IZ IF VZ VF (below _ _ PS ltac:(lia))) as NP.
  apply near_bound in NP as (IP & p & VP & HP). 
  pose proof (sum_size _ _ _ _ _ _ _ BZ BF BG HZ CF CG HP) as SS. pose proof (add_near _ _ _ _ IP IG VP VG (below _ _ SS ltac:(lia))) as NV.
  apply near_bound in NV as (IV & v & VV & HV). split; [exact IV|]. exists v. split; [exact VV|].
  rewrite tol_same. exact (from_close _ _ _ _ _ _ _ _ BF HZ CF CG HP HV).
Qed.
Theorem fromS_dbl : forall bits m z, holds_raw bits m sg z -> eval (e_evals e) (e_ctx e) m [] (phys_expr e sg) = Ok (VD (phys_dbl z)).
Proof.
  intros bits m z (t & MS & TO & MA). destruct dbl_conv as (ef & eo & fb & tb & EF & EO & LK & _ & PB & _).
  unfold phys_expr. rewrite DB. apply ev_castd; [reflexivity|]. unfold e_evals.
  rewrite (eval_call1 (S (e_fuel e)) (e_ctx e) m _ _ _ _ _ _ LK PB MS MA). erewrite ev_bin; [|reflexivity|erewrite ev_bin; [|reflexivity|apply ev_x|apply EF]; reflexivity|apply EO]. reflexivity.
Qed.

Definition raw_dbl (x : dbl) : option Z := dtrunc (ddiv (dsub x (lit_dbl (s_offset sg))) (lit_dbl (s_factor sg))).
Lemma step_carries : forall (s : bool) (l z : Z), 1 <= l -> carries s l z -> carries s l (z - Z.sgn z).
Proof. intros s l z L C. unfold carries in *. destruct z, s; cbn [Z.sgn] in *; lia. Qed.
Theorem toS_close : forall z x q, carries (s_signed sg) (s_len sg) z -> is_double x -> dval x = Some q ->
  (Qabs (q - (inject_Z z * F + G)) <= tolerance z F G)%Q -> (8 * tolerance z F G <= Qabs F)%Q ->
  raw_dbl x = Some z \/ raw_dbl x = Some (z - Z.sgn z).
Proof.
  intros z x q C IX VX HQ FINE. rewrite tol_same in HQ, FINE. destruct dbl_conv as (_ & _ & _ & _ & _ & _ & _ & _ & _ & _ & (IF & wf & VF & CF) & (IG & wg & VG & CG)).
  pose proof (raw_size z C) as BZ. pose proof (diff_size _ _ _ _ _ BZ BF BG FINE HQ CG) as DS.
  pose proof (sub_near _ _ _ _ IX IG VX VG (below _ _ DS ltac:(lia))) as NS. apply near_bound in NS as (IS & s & VS & HS).
  pose proof (F_nonzero _ _ _ _ FINE CF) as NZ. pose proof (quot_size _ _ _ _ _ _ _ BZ FINE HQ CF CG HS) as QS.
  pose proof (div_near _ _ _ _ IS IF VS VF NZ (below _ _ QS ltac:(lia))) as NR. apply near_bound in NR as (IR & r & VR & HR).
  exact (trunc_step _ _ _ VR (to_close _ _ _ _ _ _ _ _ FINE HQ CF CG HS HR)).
Qed.
Theorem toS_dbl : forall m x w, holds m (s_namefloat sg) (phys_ty sg) (VD x) -> raw_dbl x = Some w -> can_hold (s_typero sg) w ->
  eval (e_evals e) (e_ctx e) m [] (raw_expr e sg) = Ok (VI (s_typero sg) w).
Proof.
  intros m x w (MS & _ & MA) R H. destruct dbl_conv as (ef & eo & fb & tb & EF & EO & _ & LK & _ & PB & _).
  unfold raw_expr. rewrite (ev_cast _ _ _ _ (s_typero sg) _ _ w); [now rewrite hold_conv|reflexivity|]. unfold e_evals.
  rewrite (eval_call1 (S (e_fuel e)) (e_ctx e) m _ _ _ _ _ _ LK PB MS MA). eapply ev_casti; [reflexivity| |exact R|exact H].
  erewrite ev_bin; [|reflexivity|erewrite ev_bin; [|reflexivity|apply ev_x|apply EO]; reflexivity|apply EF]. reflexivity.
Qed.
End Double.
