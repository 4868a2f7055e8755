(** Cycle times from 2^31: the macro of the header in expressions. *)

From Coq Require Import ZArith NArith List String Ascii Bool Lia ZifyBool Permutation.
From Verif Require Import Base Dbl CSyntax CSem CRun Types Formatter SigPrinter Writer Settings
  MainGen App CodecSpec MsgSpec LexLemmas BitLemmas CSemLemmas Chunks UnpackProof PPProof BodyLemmas
  UnpackBody UnpackFun PackProof PackBody PackFun SourceFun DriverSpec DriverProof HeaderSpec HeaderProof HeaderRun HeaderTables.
Import ListNotations.
Open Scope string_scope.

(** cycle times from 2^31 are written as a negative number with the suffix U *)
Lemma lex_paren_negU : forall z, (- 2 ^ 31 <= z < 0)%Z -> lex (" (" ++ decZ z ++ "U)") = [TP PLpar; TP (PBin OSub); TInt U32 (- z); TP PRpar].
Proof.
  intros z H. unfold decZ. replace (z <? 0)%Z with true by lia. unfold lex. rewrite app_assoc.
  change (" (" ++ "-" ++ dec (Z.to_N (- z)) ++ "U)") with (String " " (String "(" (String "-" (dec (Z.to_N (- z)) ++ "U)")))).
  rewrite lex_space, (lex_idle_solo "(" PLpar) by reflexivity.
  destruct (dec_starts_digit (Z.to_N (- z)) "U)") as (c & r & E & D). rewrite E, lex_minus, <- E by auto.
  change (dec (Z.to_N (- z)) ++ "U)") with (dec (Z.to_N (- z)) ++ String "U" (String ")" "")).
  rewrite lex_decU; [|lia|reflexivity]. lexend. now rewrite Z2N.id by lia.
Qed.
Lemma header_cycle_wide : forall drv g d h c conf msg, driver drv g d h c -> header_ok d -> In msg (d_msgs d) ->
  (2 ^ 31 <= g_cycle msg < 2 ^ 32)%Z -> once (g_name msg ++ "_CYC") h ->
  exists b, lookup (g_name msg ++ "_CYC") (after_header conf h) = Some {| m_params := None; m_body := b |} /\
    parse_expr_toks b = Some (EUn UNeg (EInt U32 (2 ^ 32 - g_cycle msg))).
Proof.
  intros drv g d h c conf msg DR HO IM CY O. set (z := (g_cycle msg - 2 ^ 32)%Z). assert (ZB : (- 2 ^ 31 <= z < 0)%Z) by (unfold z; lia).
  destruct (driver_header _ _ _ _ _ DR HO) as (HD & ps & ms & -> & PM & CN).
  assert (MO : msg_ok msg) by (apply (dr_msgs _ _ _ _ _ DR _ IM)).
  assert (IMS : In msg ms) by (eapply Permutation_in; [apply Permutation_sym; eauto|auto]).
  assert (ID : is_ident (g_name msg ++ "_CYC") = true) by (apply ident_prefix; [apply MO|reflexivity]).
  set (r := (" (" ++ decZ z ++ "U)")%string).
  assert (IK : In ("_CYC", r) (consts msg)).
  { unfold consts. apply in_app_iff. right. replace (0 <? g_cycle msg)%Z with true by lia. left. unfold r. f_equal. f_equal. f_equal. f_equal. unfold swrap. rewrite Z.mod_small by lia.
    change (32 - 1)%Z with 31%Z. replace (g_cycle msg <? 2 ^ 31)%Z with false by lia. reflexivity. }
  pose proof (define_const (g_name msg ++ "_CYC") (decZ z) r ID (or_introl eq_refl)) as E.
  exists (lex r). split.
  - assert (B1 : snd (pp_define ((g_name msg ++ "_CYC") ++ r)) = {| m_params := None; m_body := lex r |}) by now rewrite E.
    assert (B0 : fst (pp_define ((g_name msg ++ "_CYC") ++ r)) = (g_name msg ++ "_CYC")%string) by now rewrite E.
    rewrite <- B1. rewrite <- B0 at 1.
    apply (found_define conf ps _ [] _ [] (cn_const _ _ _ _ CN msg "_CYC" r IMS IK)).
    + cbn [List.app]. rewrite app_assoc. apply part_raw. now apply const_raw.
    + apply bal_nil.
    + now apply ident_head.
    + now rewrite B0.
  - unfold r. rewrite lex_paren_negU by exact ZB. replace (- z)%Z with (2 ^ 32 - g_cycle msg)%Z by (unfold z; lia). reflexivity.
Qed.
Theorem header_cycle_value : forall drv g d h c conf m, driver drv g d h c -> header_ok d -> In m (d_msgs d) ->
  (0 < g_cycle m < 2 ^ 32)%Z -> once (g_name m ++ "_CYC") h ->
  forall j C mm, c_macros C = after_header conf h -> eval (S j) C mm [] (EId (g_name m ++ "_CYC")) = Ok (VI U32 (g_cycle m)).
Proof.
  intros drv g d h c conf m DR HO J CB ON n C mm EM. cbn [eval lookup]. rewrite EM. destruct (Z.ltb_spec (g_cycle m) (2 ^ 31)).
  - destruct (header_cycle _ _ _ _ _ conf m DR HO J ltac:(lia) ON) as (bd & B1 & B2). rewrite B1, B2. destruct n; reflexivity.
  - destruct (header_cycle_wide _ _ _ _ _ conf m DR HO J ltac:(lia) ON) as (bd & B1 & B2). rewrite B1, B2.
    assert (X : un_val UNeg (VI U32 (2 ^ 32 - g_cycle m)) = Ok (VI U32 (g_cycle m))).
    { set (u := (2 ^ 32 - g_cycle m)%Z). assert (U1 : (0 <= u < 4294967296)%Z) by (unfold u; lia). assert (U2 : g_cycle m = (- u + 1 * 2 ^ 32)%Z) by (unfold u; lia).
      unfold un_val, arith. change (promote U32) with U32. rewrite (conv_id U32 u) by (unfold fits; change (ty_min U32) with 0%Z; change (ty_max U32) with 4294967295%Z; lia).
      change (is_signed U32) with false. cbv iota. do 2 f_equal. unfold conv. change (is_signed U32) with false. cbv iota. change (width U32) with 32%Z. unfold uwrap.
      rewrite <- (Z.mod_add (- u) 1 (2 ^ 32)) by lia. rewrite <- U2. apply Z.mod_small. lia. }
    destruct n; exact X.
Qed.
