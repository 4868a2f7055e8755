(** Cycle times, version and value tables as macros of an emitted header. *)

From Coq Require Import ZArith NArith List String Ascii Bool Lia ZifyBool Permutation.
From Verif Require Import Base Dbl CSyntax CSem CRun Types Formatter SigPrinter Writer Settings
  MainGen App CodecSpec MsgSpec LexLemmas BitLemmas CSemLemmas Chunks UnpackProof PPProof BodyLemmas
  UnpackBody UnpackFun PackProof PackBody PackFun SourceFun DriverSpec DriverProof HeaderSpec HeaderProof HeaderRun.
Import ListNotations.
Open Scope string_scope.

Lemma header_cycle : forall drv g d h c conf msg, driver drv g d h c -> header_ok d -> In msg (d_msgs d) ->
  (0 < g_cycle msg < 2 ^ 31)%Z -> once (g_name msg ++ "_CYC") h ->
  const_macro (after_header conf h) (g_name msg ++ "_CYC") (g_cycle msg).
Proof.
  intros drv g d h c conf msg DR HO IM CY O.
  apply (header_const_of drv g d h c conf msg "_CYC" (g_cycle msg) (" (" ++ pu (g_cycle msg) ++ "U)")); auto; [|lia].
  unfold consts. apply in_app_iff. right. replace (0 <? g_cycle msg)%Z with true by lia. left. f_equal.
  unfold swrap, decZ, pu. rewrite Z.mod_small by lia. change (32 - 1)%Z with 31%Z.
  replace (g_cycle msg <? 2 ^ 31)%Z with true by lia. replace (g_cycle msg <? 0)%Z with false by lia. reflexivity.
Qed.

Lemma top_const : forall ps M x v, at_top ps [L ("#define " ++ x ++ " (" ++ pu v ++ "U)")] -> is_ident x = true -> (String.length x <= 1200)%nat ->
  (0 <= v < 2 ^ 32)%Z -> once x (sconcat ps) -> const_macro (after_header M (sconcat ps)) x v.
Proof.
  intros ps M x v T I LX V O. destruct (define_parens x v (" (" ++ pu v ++ "U)") I V (or_introl eq_refl)) as (E & b & B1 & B2).
  exists b. split; [|exact B2]. rewrite <- B1. rewrite <- E at 1.
  pose proof (no_nl_ident' _ I) as N. pose proof (pu_len v ltac:(lia)) as LV.
  apply (found_define M ps _ [] _ [] T).
  - cbn [List.app]. apply part_raw. raw.
  - apply bal_nil.
  - now apply ident_head.
  - now rewrite E.
Qed.

(** a macro that is an integer constant, with or without sign, in parentheses *)
Definition int_macro (M : list (string * macro)) (x : string) (v : Z) : Prop :=
  exists b e, lookup x M = Some {| m_params := None; m_body := b |} /\ parse_expr_toks b = Some e /\
    forall n c m loc, exists t, eval n c m loc e = Ok (VI t v).

Lemma lex_minus : forall c r, is_digit c = true -> lex_from LIdle (String "-" (String c r)) = TP (PBin OSub) :: lex_from LIdle (String c r).
Proof. intros [[] [] [] [] [] [] [] []] r H; try discriminate H; reflexivity. Qed.
Lemma lex_dec_wide : forall n c r, (n < 2 ^ 32)%N -> word_ends c = true ->
  lex_from LIdle (dec n ++ String c r) = TInt (if (n <? 2 ^ 31)%N then I32 else I64) (Z.of_N n) :: lex_from LIdle (String c r).
Proof.
  intros n c r N W. rewrite lex_word; [|apply dec_nonempty|apply dec_idchars|exact W].
  rewrite word_dec. f_equal. unfold int_const.
  destruct (n <? 2 ^ 31)%N eqn:E.
  - replace (Z.of_N n <? 2 ^ 31)%Z with true by lia. reflexivity.
  - replace (Z.of_N n <? 2 ^ 31)%Z with false by lia. replace (Z.of_N n <? 2 ^ 63)%Z with true by lia. reflexivity.
Qed.
Lemma lex_paren_pos : forall z, (0 <= z < 2 ^ 31)%Z -> lex (" (" ++ decZ z ++ ")") = [TP PLpar; TInt I32 z; TP PRpar].
Proof.
  intros z H. unfold decZ. replace (z <? 0)%Z with false by lia. unfold lex. lexrun ltac:(fail).
  change (dec (Z.to_N z) ++ ")") with (dec (Z.to_N z) ++ String ")" "").
  rewrite lex_dec; [|lia|reflexivity]. lexend. now rewrite Z2N.id by lia.
Qed.
Lemma lex_paren_neg : forall z, (- 2 ^ 31 <= z < 0)%Z ->
  lex (" (" ++ decZ z ++ ")") = [TP PLpar; TP (PBin OSub); TInt (if (- z <? 2 ^ 31)%Z then I32 else I64) (- z); TP PRpar].
Proof.
  intros z H. unfold decZ. replace (z <? 0)%Z with true by lia. unfold lex. rewrite app_assoc.
  change (" (" ++ "-" ++ dec (Z.to_N (- z)) ++ ")") with (String " " (String "(" (String "-" (dec (Z.to_N (- z)) ++ ")")))).
  rewrite lex_space, (lex_idle_solo "(" PLpar) by reflexivity.
  destruct (dec_starts_digit (Z.to_N (- z)) ")") as (c & r & E & D). rewrite E, lex_minus, <- E by auto.
  change (dec (Z.to_N (- z)) ++ ")") with (dec (Z.to_N (- z)) ++ String ")" "").
  rewrite lex_dec_wide; [|lia|reflexivity]. lexend. rewrite Z2N.id by lia.
  replace (Z.to_N (- z) <? 2 ^ 31)%N with (- z <? 2 ^ 31)%Z by lia. reflexivity.
Qed.

Lemma define_signed : forall x z, is_ident x = true -> (- 2 ^ 31 <= z < 2 ^ 31)%Z ->
  fst (pp_define (x ++ " (" ++ decZ z ++ ")")) = x /\
  exists b e, snd (pp_define (x ++ " (" ++ decZ z ++ ")")) = {| m_params := None; m_body := b |} /\ parse_expr_toks b = Some e /\
    forall n c m loc, exists t, eval n c m loc e = Ok (VI t z).
Proof.
  intros x z I Z. unfold pp_define. rewrite span_ident; [|now apply ident_chars|reflexivity].
  assert (E : (match " (" ++ decZ z ++ ")" with String "(" r => Some r | _ => None end) = None) by reflexivity.
  cbn [append]. cbv iota beta. split; [reflexivity|].
  change (String " " (String "(" (decZ z ++ ")"))) with (" (" ++ decZ z ++ ")"). clear E.
  destruct (Z.ltb_spec z 0).
  - rewrite lex_paren_neg by lia. eexists _, _. split; [reflexivity|]. split; [reflexivity|]. intros n c m loc.
    destruct (- z <? 2 ^ 31)%Z eqn:L.
    + exists I32. assert (X : un_val UNeg (VI I32 (- z)) = Ok (VI I32 z)).
      { unfold un_val, arith. change (promote I32) with I32. rewrite conv_id by (unfold fits; cbn; lia).
        replace (- - z)%Z with z by lia. change (is_signed I32) with true. replace (fits I32 z) with true by (unfold fits; cbn; lia). reflexivity. }
      destruct n; exact X.
    + exists I64. assert (z = - 2 ^ 31)%Z as -> by lia. destruct n; reflexivity.
  - rewrite lex_paren_pos by lia. eexists _, _. split; [reflexivity|]. split; [reflexivity|]. intros n c m loc. exists I32. destruct n; reflexivity.
Qed.

(** the value table of a signal, unless the configuration already defines the name *)
Theorem header_table : forall drv g d h c conf msg sg t v, driver drv g d h c -> header_ok d -> In msg (d_msgs d) ->
  g_notempty msg = true -> In sg (g_sigs msg) -> In (t, v) (s_valdefs sg) ->
  let x := s_name sg ++ "_" ++ g_name msg ++ "_" ++ t in
  once x h -> lookup x conf = None -> int_macro (after_header conf h) x (swrap 32 v).
Proof.
  intros drv g d h c conf msg sg t v DR HO IM NE IS IV x O LK.
  destruct (driver_header _ _ _ _ _ DR HO) as (HD & ps & ms & -> & PM & CN).
  assert (MO : msg_ok msg) by (apply (dr_msgs _ _ _ _ _ DR _ IM)).
  assert (IMS : In msg ms) by (eapply Permutation_in; [apply Permutation_sym; eauto|auto]).
  destruct (hs_table _ (ho_sigs _ HO _ _ IM IS) _ _ IV) as [TI TL].
  assert (SO : sig_ok (g_dlc msg) sg) by now apply (mo_sigs _ MO).
  assert (ID : is_ident x = true) by (apply table_ident; auto; [apply SO|apply MO]).
  pose proof (swrap_in v) as SW.
  destruct (define_signed x (swrap 32 v) ID ltac:(lia)) as (E & b & e & B1 & B2 & B3).
  exists b, e. split; [|auto]. rewrite <- B1.
  assert (F : lookup x (after_header conf (sconcat ps))
    = match lookup x conf with Some mc => Some mc | None => Some (snd (pp_define (x ++ " (" ++ decZ (swrap 32 v) ++ ")"))) end).
  { apply (found_guarded conf ps _ [] "#endif" _ _ (cn_table _ _ _ _ CN msg sg (t, v) IMS NE IS IV)); auto.
    - apply (table_part msg sg (t, v) MO SO (ho_sigs _ HO _ _ IM IS) IV).
    - apply ident_head; auto.
    - apply bal_nil. }
  now rewrite F, LK.
Qed.
