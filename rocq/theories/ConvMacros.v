(** The conversion macros of the emitted header. *)

From Coq Require Import ZArith NArith QArith Qabs List String Ascii Bool Lia ZifyBool Permutation.
From Coq Require Import Floats.SpecFloat.
From Verif Require Import Base Dbl CSyntax CSem CRun Types Formatter SigPrinter Writer Settings
  MainGen App CodecSpec MsgSpec LexLemmas BitLemmas CSemLemmas Chunks UnpackProof PPProof BodyLemmas
  UnpackBody UnpackFun PackProof PackBody PackFun SourceFun DriverSpec DriverProof HeaderSpec HeaderProof HeaderRun LineParser
  ScanSpec ScanLemmas ScanLines ScanMarks CodecEnv ConvSpec ConvEnv SigTypes DblPrint.
Import ListNotations.
Open Scope Z_scope.
Open Scope string_scope.

(** *** Literals between parentheses *)
Definition literal (txt : string) (e : expr) : Prop :=
  exists l, (forall r, lex_from LIdle (txt ++ String ")" r) = (l ++ TP PRpar :: lex_from LIdle r)%list) /\
    forall k, erun (FParen :: k, Need) (l ++ [TP PRpar]) = Some (k, Have e).

Definition int_lit (z : Z) : expr :=
  let t := if (Z.abs z <? 2 ^ 31)%Z then I32 else I64 in
  if (z <? 0)%Z then EUn UNeg (EInt t (- z)) else EInt t z.

Lemma lex_rpar : forall r, lex_from LIdle (String ")" r) = TP PRpar :: lex_from LIdle r.
Proof. intros r. now apply lex_idle_solo. Qed.
Lemma lex_minus : forall c r, Ascii.eqb c ">" = false -> lex_from LIdle (String "-" (String c r)) = TP (PBin OSub) :: lex_from LIdle (String c r).
Proof.
  intros c r H. change (lex_from LIdle (String "-" (String c r))) with (lex_from (LPunct "-") (String c r)).
  assert (P : punct2 "-" c = None) by (unfold punct2; cbn; now rewrite H).
  unfold lex_from; fold lex_from. unfold lstep. rewrite P. change (Ascii.eqb "-" "/") with false. cbn [andb].
  change (punct1 "-") with (Some (PBin OSub)). cbv iota. destruct (lstart c). reflexivity.
Qed.

Lemma lit_int : forall z, (- 2 ^ 31 <= z < 2 ^ 31)%Z -> literal (decZ z) (int_lit z).
Proof.
  intros z Z. unfold decZ, int_lit. destruct (z <? 0)%Z eqn:N.
  - exists [TP (PBin OSub); TInt (if (Z.abs z <? 2 ^ 31)%Z then I32 else I64) (- z)]. split; [|reflexivity]. intros r.
    destruct (dec_starts_digit (Z.to_N (- z)) (String ")" r)) as (c & t & E & D). rewrite app_assoc, E.
    change ("-" ++ String c t) with (String "-" (String c t)). rewrite lex_minus.
    2: { destruct (Ascii.eqb_spec c ">") as [->|]; [discriminate D|reflexivity]. }
    rewrite <- E. rewrite lex_word by (auto using dec_nonempty, dec_idchars). rewrite word_dec, lex_rpar. cbn [List.app]. do 2 f_equal.
    unfold int_const. rewrite Z2N.id by lia. replace (Z.abs z) with (- z)%Z by lia. destruct (- z <? 2 ^ 31)%Z; [reflexivity|].
    cbn [andb]. replace (- z <? 2 ^ 63)%Z with true by lia. reflexivity.
  - exists [TInt I32 z]. replace (Z.abs z <? 2 ^ 31)%Z with true by lia. split; [|reflexivity]. intros r.
    rewrite lex_dec; [|change (2 ^ 31)%N with 2147483648%N; lia|reflexivity]. rewrite lex_rpar, Z2N.id by lia. reflexivity.
Qed.
Lemma lit_int_val : forall z, lit_val (int_lit z) = Some (inject_Z z).
Proof. intros z. unfold int_lit. destruct (z <? 0)%Z eqn:E; cbn [lit_val]; [|reflexivity]. now rewrite Z.opp_involutive. Qed.

(** number words with a dot *)
Definition nchar (c : ascii) : bool := is_idchar c || Ascii.eqb c ".".
Lemma lex_innum : forall w rw c r, all_chars nchar w = true -> word_ends c = true ->
  lex_from (LWord true rw) (w ++ String c r) = word (rev_string rw ++ w) :: lex_from LIdle (String c r).
Proof.
  induction w as [|d w IH]; intros rw c r A E.
  - cbn [String.append lex_from lstep]. unfold word_ends in E. apply negb_true_iff in E. apply orb_false_iff in E. destruct E as [E1 E2].
    rewrite E1, E2, andb_false_r. cbn [orb]. rewrite app_nil_r. cbn [lstep]. destruct (lstart c) as [l s']. reflexivity.
  - cbn [all_chars] in A. apply andb_true_iff in A. destruct A as [A1 A2]. rewrite app_cons. cbn [lex_from lstep andb].
    unfold nchar in A1. rewrite A1. cbn [List.app]. rewrite IH; auto. rewrite rev_cons, app_assoc. reflexivity.
Qed.
Lemma digit_nchar : forall c, is_digit c = true -> nchar c = true.
Proof. intros c H. unfold nchar, is_idchar. rewrite H, orb_true_r. reflexivity. Qed.
Lemma digits_nchar : forall s, all_chars is_digit s = true -> all_chars nchar s = true.
Proof. intros s. apply all_chars_impl. apply digit_nchar. Qed.

Lemma lex_num : forall w c r, (exists d t, w = String d t /\ is_digit d = true) -> all_chars nchar w = true -> word_ends c = true ->
  lex_from LIdle (w ++ String c r) = word w :: lex_from LIdle (String c r).
Proof.
  intros w c r (d & t & -> & D) A E. cbn [all_chars] in A. apply andb_true_iff in A as [A1 A2]. rewrite app_cons. cbn [lex_from lstep].
  unfold lstart. replace (is_idchar d) with true by (unfold is_idchar; now rewrite D, orb_true_r). rewrite D. cbn [List.app].
  rewrite lex_innum by auto. reflexivity.
Qed.

Definition flt_text (a b : string) : string := a ++ "." ++ b.
Lemma list_app : forall a b, list_ascii_of_string (a ++ b) = (list_ascii_of_string a ++ list_ascii_of_string b)%list.
Proof. induction a as [|c r IH]; intros b; [reflexivity|]. cbn. now rewrite IH. Qed.
Lemma digits_nodot : forall s, all_chars is_digit s = true -> filter (Ascii.eqb ".") (list_ascii_of_string s) = [].
Proof.
  induction s as [|c r IH]; intros H; [reflexivity|]. cbn [all_chars] in H. apply andb_true_iff in H as [D H]. cbn [list_ascii_of_string filter].
  destruct (Ascii.eqb_spec "." c) as [<-|]; [discriminate D|auto].
Qed.
Lemma float_text : forall a b, a <> "" -> all_chars is_digit a = true -> all_chars is_digit b = true -> is_float_text (flt_text a b) = true.
Proof.
  intros a b N A B. unfold is_float_text, flt_text. rewrite !all_chars_app, !list_app, !filter_app, !app_length.
  rewrite (digits_nodot a A), (digits_nodot b B). apply andb_true_iff. split; [apply andb_true_iff; split|reflexivity].
  - rewrite !andb_true_iff. repeat split; auto; (eapply all_chars_impl; [|eassumption]); intros c D; cbn beta; now rewrite D.
  - destruct a as [|c r]; [congruence|]. cbn [all_chars] in A. apply andb_true_iff in A as [A _]. cbn. now rewrite A.
Qed.
Lemma word_flt : forall a b, a <> "" -> all_chars is_digit a = true -> all_chars is_digit b = true -> word (flt_text a b) = TFlt (flt_text a b).
Proof.
  intros a b N A B. destruct a as [|c r] eqn:EA; [congruence|]. rewrite <- EA in *. unfold word.
  replace (flt_text a b) with (String c (r ++ "." ++ b)) by (now subst a). assert (D : is_digit c = true).
  { subst a. cbn [all_chars] in A. now apply andb_true_iff in A as [A _]. }
  rewrite D. replace (String c (r ++ "." ++ b)) with (flt_text a b) by (now subst a). unfold num_word.
  replace (has_char "." (flt_text a b)) with true; [|unfold flt_text; rewrite !has_char_app; cbn; now rewrite !orb_true_r].
  rewrite float_text by auto. reflexivity.
Qed.
Lemma span_digits : forall a r, all_chars is_digit a = true ->
  span (fun c => negb (Ascii.eqb c ".")) (a ++ String "." r) = (a, String "." r).
Proof.
  induction a as [|c a IH]; intros r H; [reflexivity|]. cbn [all_chars] in H. apply andb_true_iff in H as [D H]. cbn [String.append span].
  destruct (Ascii.eqb_spec c ".") as [->|]; [discriminate D|]. cbn [negb]. now rewrite IH.
Qed.

Definition flt_lit (neg : bool) (a b : string) : expr := if neg then EUn UNeg (EFlt (flt_text a b)) else EFlt (flt_text a b).
Lemma lit_flt : forall txt neg a b n, decimal txt neg a b n -> literal txt (flt_lit neg a b).
Proof.
  intros txt neg a b n (-> & NE & DA & DB & _).
  assert (H : forall r, lex_from LIdle ((a ++ "." ++ b) ++ String ")" r) = TFlt (flt_text a b) :: TP PRpar :: lex_from LIdle r).
  { intros r. rewrite lex_num; [|destruct a as [|c t]; [congruence|]; do 2 eexists; split; [reflexivity|]; cbn [all_chars] in DA; now apply andb_true_iff in DA as [DA _]| |reflexivity].
    - change (a ++ "." ++ b) with (flt_text a b). rewrite word_flt by auto. now rewrite lex_rpar.
    - rewrite !all_chars_app. rewrite (digits_nchar a), (digits_nchar b) by auto. reflexivity. }
  destruct neg; unfold flt_lit.
  - exists [TP (PBin OSub); TFlt (flt_text a b)]. split; [|reflexivity]. intros r. cbn [String.append].
    destruct a as [|c t] eqn:EA; [congruence|]. cbn [String.append]. rewrite lex_minus.
    2: { cbn [all_chars] in DA. apply andb_true_iff in DA as [DA _]. destruct (Ascii.eqb_spec c ">") as [->|]; [discriminate DA|reflexivity]. }
    cbn [List.app]. f_equal. apply H.
  - exists [TFlt (flt_text a b)]. split; [|reflexivity]. intros r. apply H.
Qed.
Lemma lit_flt_val : forall txt neg a b n, decimal txt neg a b n -> exists q, lit_val (flt_lit neg a b) = Some q /\ q = decimal_value neg b n.
Proof.
  intros txt neg a b n (-> & NE & DA & DB & V). unfold flt_lit. assert (FT := float_text a b NE DA DB).
  assert (SP : span (fun c => negb (Ascii.eqb c ".")) (flt_text a b) = (a, String "." b)) by (apply span_digits; auto).
  destruct neg; cbn [lit_val]; rewrite FT, SP, V; eexists; split; reflexivity.
Qed.

(** *** Macro bodies *)
Definition R (s : estate) (t : string) : option expr :=
  match erun s (lex_from LIdle t) with Some s' => efinish s' | None => None end.
Lemma R_lit : forall f ef k r, literal f ef -> R (FParen :: k, Need) (f ++ String ")" r) = R (k, Have ef) r.
Proof.
  intros f ef k r (l & L & P). unfold R. rewrite L. replace (l ++ TP PRpar :: lex_from LIdle r)%list with ((l ++ [TP PRpar]) ++ lex_from LIdle r)%list
    by (now rewrite <- List.app_assoc). now rewrite erun_app, P.
Qed.
Lemma R_open : forall p s s' r, lend LIdle p = LPunct "(" -> erun s (lemit LIdle p ++ [TP PLpar]) = Some s' -> R s (p ++ r) = R s' r.
Proof.
  intros p s s' r E P. unfold R. rewrite lex_split, E, (lex_solo "(" PLpar) by reflexivity.
  replace (lemit LIdle p ++ TP PLpar :: lex_from LIdle r)%list with ((lemit LIdle p ++ [TP PLpar]) ++ lex_from LIdle r)%list by (now rewrite <- List.app_assoc).
  now rewrite erun_app, P.
Qed.
Lemma R_start : forall t, parse_expr t = R ([], Need) t.
Proof. reflexivity. Qed.

Ltac ropen p := erewrite (R_open p); [|reflexivity|reflexivity].
Ltac rlit L := erewrite R_lit by exact L.

Lemma body_both : forall f o ef eo, literal f ef -> literal o eo ->
  parse_expr (" ( (((x) * (" ++ f ++ ")) + (" ++ o ++ ")) )") = Some (EBin OAdd (EBin OMul (EId "x") ef) eo).
Proof.
  intros f o ef eo Lf Lo. rewrite R_start. ropen " ( (((x) * (". change (f ++ ")) + (" ++ o ++ ")) )") with (f ++ String ")" (") + (" ++ o ++ String ")" ") )")).
  rlit Lf. ropen ") + (". rlit Lo. reflexivity.
Qed.
Lemma body_mul : forall f ef, literal f ef -> parse_expr (" ( ((x) * (" ++ f ++ ")) )") = Some (EBin OMul (EId "x") ef).
Proof. intros f ef Lf. rewrite R_start. ropen " ( ((x) * (". change (f ++ ")) )") with (f ++ String ")" ") )"). rlit Lf. reflexivity. Qed.
Lemma body_add : forall f ef, literal f ef -> parse_expr (" ( ((x) + (" ++ f ++ ")) )") = Some (EBin OAdd (EId "x") ef).
Proof. intros f ef Lf. rewrite R_start. ropen " ( ((x) + (". change (f ++ ")) )") with (f ++ String ")" ") )"). rlit Lf. reflexivity. Qed.
Lemma body_sub_div : forall t f o ef eo, literal f ef -> literal o eo ->
  parse_expr (" ( (" ++ print_type t ++ ") (((x) - (" ++ o ++ ")) / (" ++ f ++ ")) )")
  = Some (EUn (UCast (print_type t)) (EBin ODiv (EBin OSub (EId "x") eo) ef)).
Proof.
  intros t f o ef eo Lf Lo. rewrite R_start.
  replace (" ( (" ++ print_type t ++ ") (((x) - (" ++ o ++ ")) / (" ++ f ++ ")) )") with ((" ( (" ++ print_type t ++ ") (((x) - (") ++ o ++ String ")" (") / (" ++ f ++ String ")" ") )"))
    by (rewrite !app_assoc; reflexivity).
  destruct t; (erewrite R_open; [|reflexivity|reflexivity]); rlit Lo; ropen ") / ("; rlit Lf; reflexivity.
Qed.
Lemma body_div : forall t f ef, literal f ef ->
  parse_expr (" ( (" ++ print_type t ++ ") ((x) / (" ++ f ++ ")) )") = Some (EUn (UCast (print_type t)) (EBin ODiv (EId "x") ef)).
Proof.
  intros t f ef Lf. rewrite R_start.
  replace (" ( (" ++ print_type t ++ ") ((x) / (" ++ f ++ ")) )") with ((" ( (" ++ print_type t ++ ") ((x) / (") ++ f ++ String ")" ") )")
    by (rewrite !app_assoc; reflexivity).
  destruct t; (erewrite R_open; [|reflexivity|reflexivity]); rlit Lf; reflexivity.
Qed.
Lemma body_sub : forall t f ef, literal f ef ->
  parse_expr (" ( (" ++ print_type t ++ ") ((x) - (" ++ f ++ ")) )") = Some (EUn (UCast (print_type t)) (EBin OSub (EId "x") ef)).
Proof.
  intros t f ef Lf. rewrite R_start.
  replace (" ( (" ++ print_type t ++ ") ((x) - (" ++ f ++ ")) )") with ((" ( (" ++ print_type t ++ ") ((x) - (") ++ f ++ String ")" ") )")
    by (rewrite !app_assoc; reflexivity).
  destruct t; (erewrite R_open; [|reflexivity|reflexivity]); rlit Lf; reflexivity.
Qed.

(** the expressions of a signal *)
Definition conv_exprs (sg : signal) (ef eo : expr) : expr * expr :=
  let x := EId "x" in
  let ty := print_type (s_typero sg) in
  let both := (EBin OAdd (EBin OMul x ef) eo, EUn (UCast ty) (EBin ODiv (EBin OSub x eo) ef)) in
  if s_double sg then both
  else if deqb (s_offset sg) (S754_zero false) then (EBin OMul x ef, EUn (UCast ty) (EBin ODiv x ef))
  else if deqb (s_factor sg) (dbl_of_Z 1) then (EBin OAdd x eo, EUn (UCast ty) (EBin OSub x eo))
  else both.

(** literals of a scaled signal *)
Definition lit_of (sg : signal) (d : dbl) (e : expr) : Prop :=
  if s_double sg then exists neg a b n, decimal (prt_double d 9) neg a b n /\ (1 <= String.length b)%nat /\
    (forall q, dval d = Some q -> (Qabs (decimal_value neg b n - q) < 105 # 10 ^ 11)%Q) /\ e = flt_lit neg a b
  else exists z, dtrunc d = Some z /\ (- 2 ^ 31 <= z < 2 ^ 31)%Z /\ e = int_lit z.

Lemma cast_i32_trunc : forall d z, cast_i32 d = Ok z -> dtrunc d = Some z /\ (- 2 ^ 31 <= z < 2 ^ 31)%Z.
Proof.
  intros d z E. split; [|eapply cast_i32_range; eauto]. unfold cast_i32 in E. destruct (dtrunc d); [|discriminate].
  destruct (_ && _); [congruence|discriminate].
Qed.
Lemma lit_of_literal : forall sg d e, lit_of sg d e -> literal (if s_double sg then prt_double d 9 else match dtrunc d with Some z => decZ z | None => "" end) e.
Proof.
  intros sg d e H. unfold lit_of in H. destruct (s_double sg).
  - destruct H as (neg & a & b & n & D & _ & _ & ->). eapply lit_flt; eauto.
  - destruct H as (z & T & B & ->). rewrite T. now apply lit_int.
Qed.

Lemma zero_trunc : forall d, deqb d (S754_zero false) = true -> dtrunc d = Some 0%Z.
Proof. intros [s|s| |s m e] H; try destruct s; try discriminate H; reflexivity. Qed.

Lemma conv_parse : forall sg a b c, conv_texts sg = Ok (a, b, c) ->
  (s_double sg = true -> is_double (s_factor sg) /\ is_double (s_offset sg) /\ dval (s_factor sg) <> None /\ dval (s_offset sg) <> None) ->
  exists ef eo tb fb, lit_of sg (s_factor sg) ef /\ lit_of sg (s_offset sg) eo /\
    b = "_toS(x)" ++ tb /\ c = "_fromS(x)" ++ fb /\
    parse_expr fb = Some (fst (conv_exprs sg ef eo)) /\ parse_expr tb = Some (snd (conv_exprs sg ef eo)).
Proof.
  intros sg a b c E V. unfold conv_texts in E. cbv zeta in E. unfold conv_exprs.
  assert (LD : s_double sg = true -> forall d, is_double d -> dval d <> None -> exists e, lit_of sg d e).
  { intros DD d I D. destruct (dval d) as [q|] eqn:Q; [|congruence]. destruct (printed_number d q I Q) as (neg & a0 & b0 & n & P & L & CL & _).
    exists (flt_lit neg a0 b0). unfold lit_of. rewrite DD. exists neg, a0, b0, n. split; [exact P|]. split; [apply L|]. split; [|reflexivity].
    intros q' Q'. assert (q = q') as <- by congruence. exact CL. }
  destruct (s_double sg) eqn:DD.
  - destruct (V eq_refl) as (I1 & I2 & D1 & D2). destruct (LD eq_refl _ I1 D1) as (ef & LF). destruct (LD eq_refl _ I2 D2) as (eo & LO).
    exists ef, eo. apply Ok_inj in E. apply pair_equal_spec in E as [E <-]. apply pair_equal_spec in E as [_ <-].
    do 2 eexists. split; [exact LF|]. split; [exact LO|]. split; [reflexivity|]. split; [reflexivity|].
    pose proof (lit_of_literal _ _ _ LF) as TF. pose proof (lit_of_literal _ _ _ LO) as TO. rewrite DD in TF, TO.
    split; [apply body_both; auto|apply body_sub_div; auto].
  - clear V LD. apply bind_inv in E as (fac & CF & E). destruct (cast_i32_trunc _ _ CF) as [TF BF].
    pose proof (lit_int fac BF) as PF.
    destruct (deqb (s_offset sg) (S754_zero false)) eqn:OZ.
    + exists (int_lit fac), (int_lit 0). apply Ok_inj in E. apply pair_equal_spec in E as [E <-]. apply pair_equal_spec in E as [_ <-].
      unfold lit_of. rewrite DD. do 2 eexists. split; [exists fac; auto|]. split; [exists 0%Z; split; [now apply zero_trunc|split; [lia|reflexivity]]|].
      split; [reflexivity|]. split; [reflexivity|]. cbn [fst snd]. split; [apply body_mul; auto|apply body_div; auto].
    + apply bind_inv in E as (off & CO & E). destruct (cast_i32_trunc _ _ CO) as [TO BO]. pose proof (lit_int off BO) as PO.
      exists (int_lit fac), (int_lit off). unfold lit_of. rewrite DD.
      destruct (deqb (s_factor sg) (dbl_of_Z 1)); apply Ok_inj in E; apply pair_equal_spec in E as [E <-]; apply pair_equal_spec in E as [_ <-];
        do 2 eexists; (split; [exists fac; auto|]); (split; [exists off; auto|]); (split; [reflexivity|]); (split; [reflexivity|]); cbn [fst snd].
      * split; [apply body_add; auto|apply body_sub; auto].
      * split; [apply body_both; auto|apply body_sub_div; auto].
Qed.

(** *** The macros of a signal in the emitted header *)
Lemma found_conv : forall e msg sg, scaled_in e msg sg ->
  (s_double sg = true -> is_double (s_factor sg) /\ is_double (s_offset sg) /\ dval (s_factor sg) <> None /\ dval (s_offset sg) <> None) ->
  exists ef eo fb tb, lit_of sg (s_factor sg) ef /\ lit_of sg (s_offset sg) eo /\
    lookup (fromS_name e sg) (e_macros e) = Some {| m_params := Some ["x"]; m_body := fb |} /\
    lookup (toS_name e sg) (e_macros e) = Some {| m_params := Some ["x"]; m_body := tb |} /\
    parse_expr_toks fb = Some (fst (conv_exprs sg ef eo)) /\ parse_expr_toks tb = Some (snd (conv_exprs sg ef eo)).
Proof.
  intros e msg sg [PR [IM NE] [IS SI] OWN [OF OT]] V. destruct PR as [DR HO _ _ _].
  destruct (driver_header _ _ _ _ _ DR HO) as (HD & ps & ms & H & PM & CN).
  pose proof (so_gen _ _ (hd_src _ HD)) as GO. pose proof (go_DRV _ GO) as ID.
  destruct (cn_conv _ _ _ _ CN msg sg) as (m' & IM' & sg' & c & p & I' & N' & S' & C' & T' & P'); auto.
  { eapply Permutation_in; [apply Permutation_sym; exact PM|exact IM]. }
  assert (IM2 : In m' (d_msgs (e_db e))) by (eapply Permutation_in; eauto).
  destruct (OWN m' sg' IM2 I' S' N') as (E1 & E2 & E3 & E4).
  assert (C2 : conv_texts sg = Ok c) by (rewrite <- C'; unfold conv_texts; now rewrite E1, E2, E3, E4).
  destruct c as [[a b] c]. destruct (conv_parse sg a b c C2 V) as (ef & eo & tb & fb & LF & LO & EB & EC & PF & PT).
  exists ef, eo, (lex fb), (lex tb). split; [exact LF|]. split; [exact LO|].
  assert (MO : msg_ok m') by (apply (dr_msgs _ _ _ _ _ DR _ IM2)). pose proof (mo_sigs _ MO _ I') as SO.
  assert (IH : forall k, is_ident k = true -> is_ident (conv_head (n_DRV (e_g e)) sg' ++ k) = true).
  { intros k K. unfold conv_head. rewrite !app_assoc. apply ident_prefix; [exact ID|]. cbn. rewrite all_chars_app.
    rewrite (ident_chars _ (ok_name _ _ SO)). cbn. now apply ident_chars. }
  unfold conv_lines in P'.
  assert (X : forall k s, is_ident k = true -> pp_define (conv_head (n_DRV (e_g e)) sg' ++ (k ++ "(x)" ++ s)) = (conv_head (n_DRV (e_g e)) sg' ++ k, {| m_params := Some ["x"]; m_body := lex s |})).
  { intros k s K. rewrite <- app_assoc. apply (define_fun1 (conv_head (n_DRV (e_g e)) sg' ++ k) "x" s); [now apply IH|reflexivity]. }
  assert (HEADS : forall s, def_head (conv_head (n_DRV (e_g e)) sg' ++ s)).
  { intros s. unfold conv_head. rewrite app_assoc. now apply ident_head. }
  assert (BAL : forall l, (forall s, In s l -> exists t, s = ("#define " ++ conv_head (n_DRV (e_g e)) sg' ++ t)%string) -> bal (("// signal: @" ++ s_name sg')%string :: l)).
  { intros l Hl. apply bal_cons; [apply bal_plain; exact Logic.I|]. induction l as [|s l IHl]; [apply bal_nil|].
    destruct (Hl s (or_introl eq_refl)) as (t & ->). apply bal_cons; [|apply IHl; intros; apply Hl; now right].
    apply bal_plain. unfold dword. rewrite directive_define; [cbn; intuition discriminate|]. apply HEADS. }
  assert (NF : fromS_name e sg = conv_head (n_DRV (e_g e)) sg' ++ "_fromS") by (unfold fromS_name, conv_head; rewrite N', !app_assoc; reflexivity).
  assert (NT : toS_name e sg = conv_head (n_DRV (e_g e)) sg' ++ "_toS") by (unfold toS_name, conv_head; rewrite N', !app_assoc; reflexivity).
  pose proof (X "_fromS" fb eq_refl) as XF. pose proof (X "_toS" tb eq_refl) as XT.
  assert (LK : forall x mc, lookup x (after_header (e_conf e) (e_h e)) = Some mc -> lookup x (e_macros e) = Some mc).
  { intros x mc L. unfold e_macros, e_unit. eapply unit_keeps; eauto. }
  split; [|split; [|split; assumption]]; apply LK; rewrite H in *; subst b c.
  - rewrite NF in *. pose proof (found_define (e_conf e) ps p _ _ [] T' (P' : part p ([_; _; _] ++ [_])%list)) as F.
    change ("_fromS(x)" ++ fb) with ("_fromS" ++ "(x)" ++ fb) in F. rewrite XF in F. cbn [fst snd] in F. apply F; auto.
    apply BAL. intros s [<-|[<-|[]]]; eexists; reflexivity.
  - rewrite NT in *. pose proof (found_define (e_conf e) ps p _ _ _ T' (P' : part p ([_; _] ++ (("#define " ++ _)%string :: [_]))%list)) as F.
    change ("_toS(x)" ++ tb) with ("_toS" ++ "(x)" ++ tb) in F. rewrite XT in F. cbn [fst snd] in F. apply F; auto.
    apply BAL. intros s [<-|[]]; eexists; reflexivity.
Qed.
