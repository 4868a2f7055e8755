(** Lemmas about statements as they occur in emitted function bodies. *)

From Coq Require Import ZArith NArith List String Ascii Bool Lia ZifyBool.
From Verif Require Import Base Dbl CSyntax CSem CRun Types Formatter SigPrinter Writer MainGen
  CodecSpec LexLemmas BitLemmas CSemLemmas Chunks UnpackProof PPProof.
Import ListNotations.
Open Scope Z_scope.

(** ** Lexing a line piece by piece *)

Lemma lex_ident' : forall w c t r, is_ident w = true -> word_ends c = true ->
  lex_from LIdle (w ++ (String c t ++ r)) = TId w :: lex_from LIdle (String c t ++ r).
Proof. intros. apply lex_ident; auto. Qed.

(** a closed literal at the front *)
Ltac lexlit1 :=
  match goal with
  | |- context [lex_from ?s (String ?a ?b ++ ?r)%string] =>
      let t := constr:(String a b) in
      rewrite (lex_split t s r);
      let x := eval vm_compute in (lemit s t) in
      let y := eval vm_compute in (lend s t) in
      change (lemit s t) with x; change (lend s t) with y; cbn [List.app]
  end.
(** whole line; [tac] deals with the variable parts *)
Ltac lexrun tac := repeat first [ lexlit1 | lexpunct | tac ].
Ltac lexend :=
  match goal with
  | |- context [lex_from ?s ?t] =>
      let x := eval vm_compute in (lex_from s t) in
      change (lex_from s t) with x
  end.

(** ** Statements on one line *)

Definition plain_start (x : string) : bool :=
  negb (String.eqb x "return" || String.eqb x "if" || String.eqb x "for" || is_typename x).

Lemma line_empty : line_stmts "" [].
Proof. intros rs k. reflexivity. Qed.

Lemma line_app : forall s ts a b, lex s = ts ->
  forall ts1 ts2, ts = (ts1 ++ ts2)%list ->
  (forall rs k, srun (KBlock rs :: k, MStmt) ts1 = Some (KBlock (rev a ++ rs)%list :: k, MStmt)) ->
  (forall rs k, srun (KBlock rs :: k, MStmt) ts2 = Some (KBlock (rev b ++ rs)%list :: k, MStmt)) ->
  line_stmts s (a ++ b).
Proof.
  intros s ts a b E ts1 ts2 -> A B rs k. rewrite E, srun_app, A, B.
  now rewrite rev_app_distr, List.app_assoc.
Qed.

Lemma srun_finish : forall rs k kind es e s,
  efinish es = Some e ->
  match kind with
  | XStmt => s = SExpr e
  | XReturn => s = SReturn e
  | XDecl ty x => s = SDecl ty x (Some e)
  | _ => False
  end ->
  srun (KBlock rs :: k, MExpr kind es) [TP PSemi] = Some (KBlock (s :: rs) :: k, MStmt).
Proof.
  intros rs k kind es e s F K. cbn [srun sstep]. rewrite F.
  destruct kind; try contradiction; subst s; reflexivity.
Qed.

Lemma stmt_line : forall s x l e, lex s = (TId x :: l ++ [TP PSemi])%list ->
  plain_start x = true -> no_semi l = true ->
  parse_expr_toks (TId x :: l) = Some e -> line_stmts s [SExpr e].
Proof.
  intros s x l e E P N PE rs k. rewrite E.
  unfold plain_start in P. apply negb_true_iff in P.
  repeat (apply orb_false_iff in P; destruct P as [P ?]).
  unfold parse_expr_toks in PE. cbn [erun] in PE.
  cbn [srun]. cbn [sstep sstart].
  rewrite P, H, H0, H1.
  destruct (estep ([], Need) (TId x)) as [es|]; [|discriminate].
  destruct (erun es l) as [es'|] eqn:R; [|discriminate].
  rewrite (srun_expr l _ XStmt es es' [TP PSemi]); auto.
  rewrite (srun_finish rs k XStmt es' e (SExpr e)); auto.
Qed.

(** statements that start with an operator, as *p = ... *)
Lemma stmt_line_deref : forall s l e, lex s = (TP (PBin OMul) :: l ++ [TP PSemi])%list ->
  no_semi l = true ->
  parse_expr_toks (TP (PBin OMul) :: l) = Some e -> line_stmts s [SExpr e].
Proof.
  intros s l e E N PE rs k. rewrite E.
  unfold parse_expr_toks in PE. cbn [erun estep] in PE.
  cbn [srun]. cbn [sstep sstart estep].
  destruct (erun _ l) as [es'|] eqn:R; [|discriminate].
  rewrite (srun_expr l _ XStmt _ es' [TP PSemi]); auto.
  rewrite (srun_finish rs k XStmt es' e (SExpr e)); auto.
Qed.

Lemma return_line : forall s l e, lex s = (TId "return" :: l ++ [TP PSemi])%list ->
  no_semi l = true -> parse_expr_toks l = Some e -> line_stmts s [SReturn e].
Proof.
  intros s l e E N PE rs k. rewrite E.
  unfold parse_expr_toks in PE.
  cbn [srun]. cbn [sstep sstart].
  change ("return" =? "return")%string with true. cbv iota.
  destruct (erun ([], Need) l) as [es'|] eqn:R; [|discriminate].
  rewrite (srun_expr l _ XReturn _ es' [TP PSemi]); auto.
  rewrite (srun_finish rs k XReturn es' e (SReturn e)); auto.
Qed.

(** parsing a parenthesised or other operand in front of more tokens *)
Lemma parse_fin : forall l k e e', erun ([], Need) l = Some (k, Have e) ->
  reduce 0 e k = (e', []) -> parse_expr_toks l = Some e'.
Proof. intros. unfold parse_expr_toks. rewrite H. cbn [efinish]. now rewrite H0. Qed.

(** ** Names that are not type names *)

Definition ends_with (s t : string) : Prop := exists r, s = (r ++ t)%string.

Lemma last_char_ends : forall r t, t <> ""%string -> last_char (r ++ t) = last_char t.
Proof. intros. apply last_char_app; auto. Qed.

Lemma not_typename : forall s c, last_char s = Some c ->
  Ascii.eqb c "t" = false -> Ascii.eqb c "d" = false -> is_typename s = false.
Proof.
  intros s c H T D. destruct (is_typename s) eqn:E; auto. exfalso.
  unfold is_typename, smem, typenames in E. cbn [existsb] in E.
  repeat (apply orb_true_iff in E; destruct E as [E|E]);
    try (apply String.eqb_eq in E; subst s; cbn in H; injection H as <-; cbn in T, D; discriminate).
  discriminate.
Qed.

(** identifiers are closed under concatenation with identifier characters *)
Lemma ident_app : forall a b, is_ident a = true -> all_chars is_idchar b = true ->
  is_ident (a ++ b) = true.
Proof.
  intros [|c a] b H K; [discriminate|]. cbn [String.append is_ident] in *.
  apply andb_true_iff in H. destruct H as [H1 H2]. rewrite H1, all_chars_app, H2, K. reflexivity.
Qed.

(** ** Memory *)

Definition fpath (x : string) : string := ("_m->" ++ x)%string.
Definition fexp (x : string) : expr := EFld true (EId "_m") x.

Lemma path_fexp : forall x, path (fexp x) = Some (fpath x).
Proof. reflexivity. Qed.

Lemma fpath_inj : forall a b, fpath a = fpath b -> a = b.
Proof. intros a b H. unfold fpath in H. cbn in H. congruence. Qed.

Definition typ (m : mem) (p : string) : option lty :=
  match m_scal m p with Some (t, _) => Some t | None => None end.

Definition val (m : mem) (p : string) : option cval :=
  match m_scal m p with Some (_, v) => Some v | None => None end.

Lemma m_scal_set_same : forall m p a, m_scal (set_scal m p a) p = Some a.
Proof. intros. unfold set_scal, upd. cbn. now rewrite String.eqb_refl. Qed.
Lemma m_scal_set_other : forall m p q a, q <> p -> m_scal (set_scal m p a) q = m_scal m q.
Proof. intros. unfold set_scal, upd. cbn. apply String.eqb_neq in H. now rewrite H. Qed.
Lemma m_arr_set_scal : forall m p a, m_arr (set_scal m p a) = m_arr m.
Proof. reflexivity. Qed.
Lemma m_scal_set_arr : forall m p a, m_scal (set_arr m p a) = m_scal m.
Proof. reflexivity. Qed.
Lemma m_arr_set_same : forall m p a, m_arr (set_arr m p a) p = Some a.
Proof. intros. unfold set_arr, upd. cbn. now rewrite String.eqb_refl. Qed.
Lemma m_arr_set_other : forall m p q a, q <> p -> m_arr (set_arr m p a) q = m_arr m q.
Proof. intros. unfold set_arr, upd. cbn. apply String.eqb_neq in H. now rewrite H. Qed.

Lemma typ_some : forall m p t, typ m p = Some t -> exists v, m_scal m p = Some (t, v).
Proof. intros m p t H. unfold typ in H. destruct (m_scal m p) as [[? v]|]; [|discriminate].
  injection H as ->. eauto. Qed.

Lemma typ_set : forall m p q t v, typ m p = Some t -> typ (set_scal m p (t, v)) q = typ m q.
Proof.
  intros. unfold typ. destruct (string_dec q p) as [->|N].
  - rewrite m_scal_set_same. unfold typ in H. destruct (m_scal m p) as [[? ?]|]; congruence.
  - rewrite m_scal_set_other; auto.
Qed.

(** memory differs only in scalars whose path satisfies [P]; types never change *)
Definition only (P : string -> Prop) (m m' : mem) : Prop :=
  m_arr m' = m_arr m /\ (forall q, typ m' q = typ m q) /\
  forall q, ~ P q -> m_scal m' q = m_scal m q.

Lemma only_refl : forall P m, only P m m.
Proof. intros. repeat split; auto. Qed.
Lemma only_trans : forall P m1 m2 m3, only P m1 m2 -> only P m2 m3 -> only P m1 m3.
Proof.
  intros P m1 m2 m3 (A & B & C) (A' & B' & C'). repeat split.
  - congruence.
  - intros. now rewrite B', B.
  - intros. rewrite C', C; auto.
Qed.
Lemma only_weaken : forall (P Q : string -> Prop) m m', (forall q, P q -> Q q) -> only P m m' -> only Q m m'.
Proof. intros P Q m m' I (A & B & C). repeat split; auto. Qed.
Lemma only_set : forall m p t v, typ m p = Some t -> only (eq p) m (set_scal m p (t, v)).
Proof.
  intros. repeat split.
  - intros. now apply typ_set.
  - intros. apply m_scal_set_other. congruence.
Qed.

(** ** Assignments to fields *)

Definition not_call (c : ctx) (r : expr) : Prop :=
  match r with ECall f _ => c_calls c f = None | _ => True end.

Lemma exec_asg : forall n c m l p r v t w, not_call c r ->
  match l with EIdx _ _ => False | _ => True end ->
  path l = Some p -> eval n c m [] r = Ok v ->
  typ m p = Some t -> to_obj t v = Ok w ->
  exec n c m (SExpr (EBin OAsg l r)) = Ok (set_scal m p (t, w), None).
Proof.
  intros n c m l p r v t w NC NI PL EV TY TO. cbn [exec].
  destruct (typ_some _ _ _ TY) as [v0 M0].
  assert (A : assign n c m l v = Ok (set_scal m p (t, w))).
  { unfold assign. destruct l; try contradiction; rewrite PL, M0, TO; reflexivity. }
  unfold exec_expr.
  destruct r; cbn [bind]; try (rewrite EV; cbn [bind]; rewrite A; reflexivity).
  unfold not_call in NC. rewrite NC. rewrite EV. cbn [bind]. rewrite A. reflexivity.
Qed.

(** ** The sign extension helper *)

Definition ext_fun : option fundef :=
  find_fun ext_sig_name (fundefs (source_toks [] extend_func_text)).

Definition ext_stmts : list stmt :=
  [SDecl "ubitext_t" "m"
     (Some (EUn (UCast "ubitext_t")
              (EBin OShl (EInt U32 1) (EBin OSub (EId "bits") (EInt U32 1)))));
   SReturn (EBin OSub (EBin OXor (EId "val") (EId "m")) (EId "m"))].

Definition ext_def : fundef :=
  {| fd_head := [TId "static"; TId "bitext_t"; TId "__ext_sig__"; TP PLpar; TId "ubitext_t";
                 TId "val"; TP PComma; TId "uint8_t"; TId "bits"; TP PRpar];
     fd_body := lex "  ubitext_t const m = (ubitext_t) (1u << (bits - 1u));  return ((val ^ m) - m);" |}.

Lemma ext_fun_def : ext_fun = Some ext_def.
Proof. vm_compute. reflexivity. Qed.

Lemma ext_parse : parse_stmts (fd_body ext_def) = Some ext_stmts.
Proof. vm_compute. reflexivity. Qed.

Lemma lxor_top : forall v k, 0 <= k -> 0 <= v < 2 ^ (k + 1) ->
  Z.lxor v (2 ^ k) = if v <? 2 ^ k then v + 2 ^ k else v - 2 ^ k.
Proof.
  intros v k K V. rewrite Z.pow_add_r in V by lia. change (2 ^ 1) with 2 in V.
  destruct (Z.ltb_spec v (2 ^ k)).
  - symmetry. apply Z.add_nocarry_lxor.
    apply Z.bits_inj'. intros j J. rewrite Z.land_spec, Z.bits_0, Z.pow2_bits_eqb by lia.
    destruct (Z.eqb_spec k j); [|apply andb_false_r].
    subst j. rewrite (testbit_high _ k k); auto; lia.
  - set (u := v - 2 ^ k). assert (U : 0 <= u < 2 ^ k) by (subst u; lia).
    assert (E : v = Z.lxor u (2 ^ k)).
    { rewrite <- Z.add_nocarry_lxor; [subst u; lia|].
      apply Z.bits_inj'. intros j J. rewrite Z.land_spec, Z.bits_0, Z.pow2_bits_eqb by lia.
      destruct (Z.eqb_spec k j); [|apply andb_false_r].
      subst j. rewrite (testbit_high _ k k); auto; lia. }
    rewrite E at 1. rewrite Z.lxor_assoc, Z.lxor_nilpotent, Z.lxor_0_r. reflexivity.
Qed.

(** names the emitted code uses for its own objects must not be macros *)
Definition own_names : list string :=
  ["m"; "val"; "bits"; "i"; "dlc_"; "__ext_sig__"]%string.
Definition names_free (M : mtable) : Prop := forall x, In x own_names -> lookup x M = None.

Lemma conv_small : forall t z, is_signed t = false -> 0 <= z < 2 ^ width t -> conv t z = z.
Proof. intros. apply conv_id. now apply fits_u. Qed.

Lemma twos_carries : forall len v, 1 <= len -> 0 <= v < 2 ^ len -> carries true len (twos len v).
Proof.
  intros len v L V. unfold carries, twos.
  assert (2 ^ len = 2 * 2 ^ (len - 1)) by (rewrite <- Z.pow_succ_r by lia; f_equal; lia).
  destruct (Z.ltb_spec v (2 ^ (len - 1))); lia.
Qed.

Lemma ext_call : forall n c t v len, c_types c = std_types -> names_free (c_macros c) ->
  1 <= len <= 32 -> 0 <= v < 2 ^ len ->
  call_pure n c ext_def [AVal (VI t v); AVal (VI I32 len)] = Ok (VI I32 (twos len v)).
Proof.
  intros n c t v len TY NF LEN V.
  assert (V32 : 0 <= v < 2 ^ 32)
    by (pose proof (Z.pow_le_mono_r 2 len 32 ltac:(lia) ltac:(lia)); lia).
  unfold call_pure. rewrite ext_parse.
  change (head_params (after_paren (fd_head ext_def))) with [("ubitext_t", "val"); ("uint8_t", "bits")]%string.
  change (head_ret (fd_head ext_def)) with (Some "bitext_t"%string).
  cbn [bind_params]. rewrite TY.
  change (std_types "ubitext_t") with (Some (LInt U32)).
  change (std_types "uint8_t") with (Some (LInt U8)).
  change (std_types "bitext_t") with (Some (LInt I32)).
  cbn [to_obj to_int bind].
  rewrite (conv_small U32 v) by auto.
  rewrite (conv_small U8 len) by (auto; cbn [width]; lia).
  set (m0 := set_scal (set_scal empty_mem "val" (LInt U32, VI U32 v)) "bits" (LInt U8, VI U8 len)).
  assert (NB : lookup "bits"%string (c_macros c) = None) by (apply NF; cbn; auto).
  assert (NV : lookup "val"%string (c_macros c) = None) by (apply NF; cbn; auto).
  assert (NM : lookup "m"%string (c_macros c) = None) by (apply NF; cbn; auto).
  assert (EB : eval n c m0 [] (EId "bits") = Ok (VI U8 len))
    by (eapply eval_var; [reflexivity|auto|reflexivity]).
  unfold ext_stmts. rewrite exec_list_cons.
  set (pk := 2 ^ (len - 1)).
  assert (PK : 0 < pk <= 2 ^ 31).
  { subst pk. split; [apply pow2_pos; lia|]. apply Z.pow_le_mono_r; lia. }
  assert (P2 : 2 ^ len = 2 * pk)
    by (subst pk; rewrite <- Z.pow_succ_r by lia; f_equal; lia).
  assert (D : exec n c m0 (SDecl "ubitext_t" "m"
     (Some (EUn (UCast "ubitext_t")
              (EBin OShl (EInt U32 1) (EBin OSub (EId "bits") (EInt U32 1))))))
     = Ok (set_scal m0 "m" (LInt U32, VI U32 pk), None)).
  { cbn [exec]. rewrite TY. change (std_types "ubitext_t") with (Some (LInt U32)).
    rewrite eval_cast, TY. change (std_types "ubitext_t") with (Some (LInt U32)).
    rewrite !eval_bin by reflexivity. rewrite !eval_int, EB. cbn [bind].
    assert (S : bin_val OSub (VI U8 len) (VI U32 1) = Ok (VI U32 (len - 1))).
    { unfold bin_val, int_op. change (usual U8 U32) with U32.
      rewrite (conv_small U32 len) by (auto; cbn [width]; lia).
      rewrite (conv_small U32 1) by (auto; cbn [width]; lia).
      unfold arith. cbn [is_signed]. rewrite conv_small by (auto; cbn [width]; lia). reflexivity. }
    rewrite S. cbn [bind].
    assert (SH : bin_val OShl (VI U32 1) (VI U32 (len - 1)) = Ok (VI U32 pk)).
    { unfold bin_val, int_op, shift_op. cbn [promote width is_signed].
      replace ((len - 1 <? 0) || (32 <=? len - 1)) with false by lia.
      rewrite Z.shiftl_1_l. fold pk. rewrite conv_small by (auto; cbn [width]; lia). reflexivity. }
    rewrite SH. cbn [bind to_obj to_int]. rewrite !(conv_small U32 pk) by (auto; cbn [width]; lia).
    reflexivity. }
  rewrite D. cbn [bind]. rewrite exec_list_cons. cbn [exec].
  set (m1 := set_scal m0 "m" (LInt U32, VI U32 pk)).
  assert (EV : eval n c m1 [] (EId "val") = Ok (VI U32 v))
    by (eapply eval_var; [reflexivity|auto|reflexivity]).
  assert (EM : eval n c m1 [] (EId "m") = Ok (VI U32 pk))
    by (eapply eval_var; [reflexivity|auto|reflexivity]).
  rewrite !eval_bin by reflexivity. rewrite EV, EM. cbn [bind].
  assert (X : bin_val OXor (VI U32 v) (VI U32 pk)
              = Ok (VI U32 (if v <? pk then v + pk else v - pk))).
  { unfold bin_val, int_op. change (usual U32 U32) with U32.
    rewrite (conv_small U32 v), (conv_small U32 pk) by (auto; cbn [width]; lia).
    subst pk. rewrite lxor_top by (try lia; replace (len - 1 + 1) with len by lia; auto).
    reflexivity. }
  rewrite X. cbn [bind]. clear X.
  unfold bin_val, int_op. change (usual U32 U32) with U32.
  rewrite (conv_small U32 pk) by (auto; cbn [width]; lia).
  unfold arith. cbn [is_signed].
  set (x := if v <? pk then v + pk else v - pk).
  rewrite (conv_small U32 x) by (auto; cbn [width]; subst x; destruct (Z.ltb_spec v pk); lia).
  cbn [bind snd to_obj to_int].
  f_equal. f_equal. unfold twos. fold pk.
  unfold conv. cbn [is_signed width]. unfold uwrap, swrap.
  change (32 - 1) with 31. rewrite Z.mod_mod by lia.
  change (2 ^ 32) with 4294967296 in *. change (2 ^ 31) with 2147483648 in *.
  subst x. destruct (Z.ltb_spec v pk).
  - replace (v + pk - pk) with v by lia. rewrite Z.mod_small by lia.
    replace (v <? 2147483648) with true by lia. reflexivity.
  - replace (v - pk - pk) with (v - 2 ^ len) by lia.
    destruct (Z.eq_dec (v - 2 ^ len) 0); [lia|].
    replace ((v - 2 ^ len) mod 4294967296) with (v - 2 ^ len + 4294967296)
      by (apply Z.mod_unique with (-1); lia).
    replace (v - 2 ^ len + 4294967296 <? 2147483648) with false by lia. lia.
Qed.

