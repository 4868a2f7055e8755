(** The bodies of emitted Pack functions: text and statements. *)

From Coq Require Import ZArith NArith List String Ascii Bool Lia ZifyBool Permutation.
From Verif Require Import Base Dbl CSyntax CSem CRun Types Formatter SigPrinter Writer Settings
  MainGen CodecSpec MsgSpec LexLemmas BitLemmas CSemLemmas Chunks UnpackProof PPProof BodyLemmas
  UnpackBody UnpackFun PackProof.
Import ListNotations.
Open Scope Z_scope.

(** ** The payload in the two kinds of functions: cframe->Data and _d *)

Definition arr_text (st : bool) : string := if st then "cframe->Data" else "_d".
Definition arr_expr (st : bool) : expr := if st then EFld true (EId "cframe") "Data" else EId "_d".
Definition arr_toks (st : bool) : list tok :=
  if st then [TId "cframe"; TP PArrow; TId "Data"] else [TId "_d"].

Lemma arr_path : forall st, path (arr_expr st) = Some (arr_text st).
Proof. destruct st; reflexivity. Qed.

(** ** The first line *)

Definition c_val (g : gendesc) : string := validate_name g.
Definition c_ini (g : gendesc) : string := initial_name g.

Lemma c_val_ident : forall g, is_ident (n_DRV g) = true -> is_ident (c_val g) = true.
Proof. intros. unfold c_val, validate_name. apply ident_app; auto. Qed.
Lemma c_ini_ident : forall g, is_ident (n_DRV g) = true -> is_ident (c_ini g) = true.
Proof. intros. unfold c_ini, initial_name. apply ident_app; auto. Qed.
Lemma c_val_nt : forall g, is_typename (c_val g) = false.
Proof.
  intros. unfold c_val, validate_name.
  eapply not_typename; [rewrite last_char_ends by discriminate; reflexivity| |]; reflexivity.
Qed.
Lemma c_ini_nt : forall g, is_typename (c_ini g) = false.
Proof.
  intros. unfold c_ini, initial_name.
  eapply not_typename; [rewrite last_char_ends by discriminate; reflexivity| |]; reflexivity.
Qed.
Lemma c_val_fold : forall g r, (n_DRV g ++ "_VALIDATE_DLC" ++ r = c_val g ++ r)%string.
Proof. intros. unfold c_val, validate_name. now rewrite app_assoc. Qed.
Lemma c_ini_fold : forall g r, (n_DRV g ++ "_INITIAL_BYTE_VALUE" ++ r = c_ini g ++ r)%string.
Proof. intros. unfold c_ini, initial_name. now rewrite app_assoc. Qed.

Definition s_decl_i : stmt := SDecl "uint8_t" "i" None.
Definition for_cond (g : gendesc) (m : message) : expr :=
  EBin OLt (EId "i") (ECall (c_val g) [EId (c_dlc m)]).
Definition for_step (g : gendesc) (st : bool) : expr :=
  EBin OAsg (EIdx (arr_expr st) (EPost (EId "i"))) (EId (c_ini g)).
Definition s_for (g : gendesc) (m : message) (st : bool) : stmt :=
  SFor (EBin OAsg (EId "i") (EInt U32 0)) (for_cond g m) (for_step g st) SSkip.

Definition init_line (g : gendesc) (m : message) (st : bool) : string :=
  ("  uint8_t i; for (i = 0u; i < " ++ validate_name g ++ "(" ++ g_name m ++ "_DLC); "
     ++ arr_text st ++ "[i++] = " ++ initial_name g ++ ");")%string.

Ltac sstep1 :=
  match goal with
  | |- context [srun ?s (?t :: ?l)] =>
      change (srun s (t :: l))
        with (match sstep s t with Some s' => srun s' l | None => None end);
      cbn [sstep sstart estep];
      repeat match goal with
             | |- context [is_typename (String ?a ?b)] =>
                 let v := eval vm_compute in (is_typename (String a b)) in
                 change (is_typename (String a b)) with v
             | |- context [(String ?a ?b =? String ?c ?d)%string] =>
                 let v := eval vm_compute in (String.eqb (String a b) (String c d)) in
                 change (String.eqb (String a b) (String c d)) with v
             end;
      cbn [estep reduce rprec prec Nat.leb rev List.app efinish complete]
  end.

Lemma init_line_stmts : forall g m st, is_ident (n_DRV g) = true -> is_ident (g_name m) = true ->
  line_stmts (init_line g m st) [s_decl_i; s_for g m st].
Proof.
  intros g m st ID IM.
  pose proof (c_dlc_ident m IM) as I1. pose proof (c_val_ident g ID) as I2.
  pose proof (c_ini_ident g ID) as I3.
  assert (LX : lex (init_line g m st)
    = ([TId "uint8_t"; TId "i"; TP PSemi; TId "for"; TP PLpar; TId "i"; TP (PBin OAsg); TInt U32 0;
        TP PSemi; TId "i"; TP (PBin OLt); TId (c_val g); TP PLpar; TId (c_dlc m); TP PRpar; TP PSemi]
       ++ arr_toks st
       ++ [TP PLbr; TId "i"; TP PInc; TP PRbr; TP (PBin OAsg); TId (c_ini g); TP PRpar; TP PSemi])%list).
  { unfold init_line. fold (c_val g) (c_ini g).
    change "_DLC); "%string with ("_DLC" ++ "); ")%string.
    rewrite ?app_assoc, c_dlc_fold.
    unfold lex. rewrite <- (app_nil_r (_ ++ _)) at 1. rewrite ?app_assoc.
    destruct st; cbn [arr_text arr_toks];
      lexrun ltac:(rewrite lex_ident' by auto); lexend; reflexivity. }
  intros rs k. rewrite LX. unfold s_decl_i, s_for, for_cond, for_step. destruct st; cbn [arr_toks arr_expr List.app];
    repeat (sstep1; rewrite ?c_val_nt, ?c_dlc_nt, ?c_ini_nt); reflexivity.
Qed.

(** ** One |= line *)

Definition s_or (st : bool) (i : Z) (l : list part) : stmt :=
  SExpr (EBin OOrAsg (EIdx (arr_expr st) (EInt I32 i)) (EUn (UCast "uint8_t") (pexpr_all l))).
Definition or_line (st : bool) (i : Z) (l : list part) : string :=
  ("  " ++ arr_text st ++ "[" ++ decZ i ++ "] |= (uint8_t) ( " ++ pjoin l ++ " );")%string.

Lemma or_line_stmts : forall st i l, 0 <= i < 1000 -> l <> [] ->
  (forall x, In x l -> part_ok x) -> line_stmts (or_line st i l) [s_or st i l].
Proof.
  intros st i l I N G. unfold or_line, s_or.
  assert (LX : lex ("  " ++ arr_text st ++ "[" ++ decZ i ++ "] |= (uint8_t) ( " ++ pjoin l ++ " );")
    = (arr_toks st ++ [TP PLbr; TInt I32 i; TP PRbr; TP (PBin OOrAsg); TP PLpar; TId "uint8_t"; TP PRpar]
         ++ (TP PLpar :: ptoks_all l ++ [TP PRpar]) ++ [TP PSemi])%list).
  { unfold lex. rewrite <- (app_nil_r (_ ++ _)) at 1. rewrite ?app_assoc.
    rewrite decZ_num by lia.
    destruct st; cbn [arr_text arr_toks];
      lexrun ltac:(first [rewrite lex_pjoin by auto | rewrite lex_num by (auto; lia)]);
      lexend; appnorm; reflexivity. }
  destruct st; cbn [arr_toks arr_expr] in *.
  - eapply stmt_line with (x := "cframe"%string)
      (l := ([TP PArrow; TId "Data"; TP PLbr; TInt I32 i; TP PRbr; TP (PBin OOrAsg); TP PLpar;
              TId "uint8_t"; TP PRpar] ++ (TP PLpar :: ptoks_all l ++ [TP PRpar]))%list).
    + rewrite LX. appnorm. reflexivity.
    + reflexivity.
    + rewrite no_semi_app. cbn [no_semi forallb]. fold (no_semi (ptoks_all l ++ [TP PRpar])).
      rewrite no_semi_app, ptoks_all_no_semi. reflexivity.
    + eapply parse_fin.
      * cbn [List.app]. do 10 estep1. rewrite pall_unit by auto. reflexivity.
      * reflexivity.
  - eapply stmt_line with (x := "_d"%string)
      (l := ([TP PLbr; TInt I32 i; TP PRbr; TP (PBin OOrAsg); TP PLpar;
              TId "uint8_t"; TP PRpar] ++ (TP PLpar :: ptoks_all l ++ [TP PRpar]))%list).
    + rewrite LX. appnorm. reflexivity.
    + reflexivity.
    + rewrite no_semi_app. cbn [no_semi forallb]. fold (no_semi (ptoks_all l ++ [TP PRpar])).
      rewrite no_semi_app, ptoks_all_no_semi. reflexivity.
    + eapply parse_fin.
      * cbn [List.app]. do 8 estep1. rewrite pall_unit by auto. reflexivity.
      * reflexivity.
Qed.

(** ** Counter, checksum, physical values *)

Definition s_inc (sg : signal) : stmt :=
  SExpr (EBin OAsg (fexp (s_name sg)) (next_rhs (s_name sg) (s_len sg))).
Definition s_csm0 (sg : signal) : stmt :=
  SExpr (EBin OAsg (fexp (s_name sg)) (EUn (UCast (print_type (s_typero sg))) (EInt I32 0))).
Definition toS_rhs (g : gendesc) (sg : signal) : expr :=
  EUn (UCast (print_type (s_typero sg)))
      (ECall (n_DRV g ++ "_" ++ s_name sg ++ "_toS") [fexp (s_namefloat sg)]).
Definition s_toS (g : gendesc) (sg : signal) : stmt :=
  SExpr (EBin OAsg (fexp (s_name sg)) (toS_rhs g sg)).
Definition s_hash (m : message) (sg : signal) (st : bool) : stmt :=
  SExpr (EBin OAsg (fexp (s_name sg))
           (EUn (UCast "uint8_t") (hash_call (arr_expr st) m))).

Definition csm0_line (sg : signal) : string :=
  ("  _m->" ++ s_name sg ++ " = (" ++ print_type (s_typero sg) ++ ") 0;")%string.
Lemma csm0_line_stmts : forall sg, is_ident (s_name sg) = true ->
  line_stmts (csm0_line sg) [s_csm0 sg].
Proof.
  intros sg ID. unfold csm0_line, s_csm0.
  eapply stmt_line with (x := "_m"%string)
    (l := [TP PArrow; TId (s_name sg); TP (PBin OAsg); TP PLpar; TId (print_type (s_typero sg));
           TP PRpar; TInt I32 0]).
  - unfold lex. rewrite <- (app_nil_r (_ ++ _)) at 1. rewrite ?app_assoc.
    lexrun ltac:(rewrite lex_ident' by (auto using is_ident_type)). lexend. reflexivity.
  - reflexivity.
  - reflexivity.
  - eapply parse_fin.
    + repeat estep1. reflexivity.
    + reflexivity.
Qed.

Lemma toS_ident : forall g sg, is_ident (n_DRV g) = true -> is_ident (s_name sg) = true ->
  is_ident (n_DRV g ++ "_" ++ s_name sg ++ "_toS") = true.
Proof.
  intros. apply ident_app; auto. rewrite !all_chars_app, (ident_chars _ H0). reflexivity.
Qed.
Lemma toS_not_type : forall a, is_typename (a ++ "_toS") = false.
Proof.
  intros. eapply not_typename; [rewrite last_char_ends by discriminate; reflexivity| |]; reflexivity.
Qed.

Definition toS_line (g : gendesc) (sg : signal) : string :=
  ("  _m->" ++ s_name sg ++ " = (" ++ print_type (s_typero sg) ++ ") " ++ n_DRV g ++ "_"
     ++ s_name sg ++ "_toS(_m->" ++ s_namefloat sg ++ ");")%string.
Lemma toS_line_stmts : forall dlc g sg, gen_ok g -> sig_ok dlc sg -> s_simple sg = false ->
  line_stmts (toS_line g sg) [s_toS g sg].
Proof.
  intros dlc g sg GO OK S.
  pose proof (ok_name _ _ OK) as ID. destruct (ok_phys _ _ OK S) as [IDF _].
  pose proof (toS_ident g sg (go_DRV g GO) ID) as IDC.
  set (f := (n_DRV g ++ "_" ++ s_name sg ++ "_toS")%string) in *.
  assert (NT : is_typename f = false).
  { subst f. rewrite <- (app_assoc "_"), <- app_assoc. apply toS_not_type. }
  unfold toS_line, s_toS, toS_rhs. fold f.
  assert (F1 : forall r, (n_DRV g ++ "_" ++ s_name sg ++ "_toS(_m->" ++ r)%string
                         = (f ++ "(_m->" ++ r)%string).
  { intros. subst f. rewrite !app_assoc. reflexivity. }
  rewrite F1.
  eapply stmt_line with (x := "_m"%string)
    (l := [TP PArrow; TId (s_name sg); TP (PBin OAsg); TP PLpar;
           TId (print_type (s_typero sg)); TP PRpar;
           TId f; TP PLpar; TId "_m"; TP PArrow; TId (s_namefloat sg); TP PRpar]).
  - unfold lex. rewrite <- (app_nil_r (_ ++ _)) at 1. rewrite !app_assoc.
    lexrun ltac:(rewrite lex_ident' by (auto using is_ident_type)). lexend. reflexivity.
  - reflexivity.
  - reflexivity.
  - eapply parse_fin.
    + repeat (estep1; rewrite ?NT). reflexivity.
    + reflexivity.
Qed.

Definition hash_line (m : message) (sg : signal) (st : bool) : string :=
  ("  _m->" ++ s_name sg ++ " = ((uint8_t)GetFrameHash(" ++ arr_text st ++ ", "
     ++ g_name m ++ "_DLC, " ++ g_name m ++ "_CANID, " ++ g_csmmethod m ++ ", "
     ++ decZ (swrap 32 (g_csmop m)) ++ "));")%string.
Lemma hash_line_stmts : forall m sg st, is_ident (g_name m) = true -> is_ident (s_name sg) = true ->
  is_ident (g_csmmethod m) = true -> is_typename (g_csmmethod m) = false ->
  0 <= g_csmop m < 2 ^ 31 ->
  line_stmts (hash_line m sg st) [s_hash m sg st].
Proof.
  intros m sg st IM IN IC NC OP. unfold hash_line, s_hash. rewrite swrap_small by lia.
  pose proof (c_dlc_ident m IM) as ID. pose proof (c_id_ident m IM) as II.
  change "_DLC, "%string with ("_DLC" ++ ", ")%string.
  change "_CANID, "%string with ("_CANID" ++ ", ")%string.
  rewrite ?app_assoc, c_dlc_fold, c_id_fold.
  eapply stmt_line with (x := "_m"%string)
    (l := ([TP PArrow; TId (s_name sg); TP (PBin OAsg); TP PLpar;
           TP PLpar; TId "uint8_t"; TP PRpar; TId "GetFrameHash"; TP PLpar] ++ arr_toks st
           ++ [TP PComma;
           TId (c_dlc m); TP PComma; TId (c_id m); TP PComma; TId (g_csmmethod m); TP PComma;
           TInt I32 (g_csmop m); TP PRpar; TP PRpar])%list).
  - unfold lex. rewrite <- (app_nil_r (_ ++ _)) at 1. rewrite ?app_assoc.
    destruct st; cbn [arr_text arr_toks];
    lexrun ltac:(first [rewrite lex_ident' by auto | rewrite lex_decZ' by auto]); lexend; reflexivity.
  - reflexivity.
  - destruct st; reflexivity.
  - destruct st; cbn [arr_toks List.app].
    + eapply parse_fin.
      * repeat (estep1; rewrite ?c_dlc_nt, ?c_id_nt, ?NC). reflexivity.
      * reflexivity.
    + eapply parse_fin.
      * repeat (estep1; rewrite ?c_dlc_nt, ?c_id_nt, ?NC). reflexivity.
      * reflexivity.
Qed.

(** ** The last lines *)

Definition s_len_out (m : message) : stmt :=
  SExpr (EBin OAsg (EUn UDeref (EId "_len")) (EUn (UCast "uint8_t") (EId (c_dlc m)))).
Definition s_ide_out (m : message) : stmt :=
  SExpr (EBin OAsg (EUn UDeref (EId "_ide")) (EUn (UCast "uint8_t") (EId (c_ide m)))).
Definition cfexp (f : string) : expr := EFld true (EId "cframe") f.
Definition s_cf_id (m : message) : stmt :=
  SExpr (EBin OAsg (cfexp "MsgId") (EUn (UCast "uint32_t") (EId (c_id m)))).
Definition s_cf_dlc (m : message) : stmt :=
  SExpr (EBin OAsg (cfexp "DLC") (EUn (UCast "uint8_t") (EId (c_dlc m)))).
Definition s_cf_ide (m : message) : stmt :=
  SExpr (EBin OAsg (cfexp "IDE") (EUn (UCast "uint8_t") (EId (c_ide m)))).

Lemma len_line : forall m, is_ident (g_name m) = true ->
  line_stmts ("  *_len = (uint8_t) " ++ g_name m ++ "_DLC;") [s_len_out m].
Proof.
  intros m IM. pose proof (c_dlc_ident m IM) as II.
  change "_DLC;"%string with ("_DLC" ++ ";")%string. rewrite ?app_assoc, c_dlc_fold.
  eapply stmt_line_deref with (l := [TId "_len"; TP (PBin OAsg); TP PLpar; TId "uint8_t"; TP PRpar; TId (c_dlc m)]).
  - unfold lex. rewrite <- (app_nil_r (_ ++ _)) at 1. rewrite ?app_assoc.
    lexrun ltac:(rewrite lex_ident' by auto). lexend. reflexivity.
  - reflexivity.
  - eapply parse_fin.
    + repeat (estep1; rewrite ?c_dlc_nt). reflexivity.
    + reflexivity.
Qed.
Lemma ide_line : forall m, is_ident (g_name m) = true ->
  line_stmts ("  *_ide = (uint8_t) " ++ g_name m ++ "_IDE;") [s_ide_out m].
Proof.
  intros m IM. pose proof (c_ide_ident m IM) as II.
  change "_IDE;"%string with ("_IDE" ++ ";")%string. rewrite ?app_assoc, c_ide_fold.
  eapply stmt_line_deref with (l := [TId "_ide"; TP (PBin OAsg); TP PLpar; TId "uint8_t"; TP PRpar; TId (c_ide m)]).
  - unfold lex. rewrite <- (app_nil_r (_ ++ _)) at 1. rewrite ?app_assoc.
    lexrun ltac:(rewrite lex_ident' by auto). lexend. reflexivity.
  - reflexivity.
  - eapply parse_fin.
    + repeat (estep1; rewrite ?c_ide_nt). reflexivity.
    + reflexivity.
Qed.
Lemma cf_id_line : forall m, is_ident (g_name m) = true ->
  line_stmts ("  cframe->MsgId = (uint32_t) " ++ g_name m ++ "_CANID;") [s_cf_id m].
Proof.
  intros m IM. pose proof (c_id_ident m IM) as II.
  change "_CANID;"%string with ("_CANID" ++ ";")%string. rewrite ?app_assoc, c_id_fold.
  eapply stmt_line with (x := "cframe"%string)
    (l := [TP PArrow; TId "MsgId"; TP (PBin OAsg); TP PLpar; TId "uint32_t"; TP PRpar; TId (c_id m)]).
  - unfold lex. rewrite <- (app_nil_r (_ ++ _)) at 1. rewrite ?app_assoc.
    lexrun ltac:(rewrite lex_ident' by auto). lexend. reflexivity.
  - reflexivity.
  - reflexivity.
  - eapply parse_fin.
    + repeat (estep1; rewrite ?c_id_nt). reflexivity.
    + reflexivity.
Qed.
Lemma cf_dlc_line : forall m, is_ident (g_name m) = true ->
  line_stmts ("  cframe->DLC = (uint8_t) " ++ g_name m ++ "_DLC;") [s_cf_dlc m].
Proof.
  intros m IM. pose proof (c_dlc_ident m IM) as II.
  change "_DLC;"%string with ("_DLC" ++ ";")%string. rewrite ?app_assoc, c_dlc_fold.
  eapply stmt_line with (x := "cframe"%string)
    (l := [TP PArrow; TId "DLC"; TP (PBin OAsg); TP PLpar; TId "uint8_t"; TP PRpar; TId (c_dlc m)]).
  - unfold lex. rewrite <- (app_nil_r (_ ++ _)) at 1. rewrite ?app_assoc.
    lexrun ltac:(rewrite lex_ident' by auto). lexend. reflexivity.
  - reflexivity.
  - reflexivity.
  - eapply parse_fin.
    + repeat (estep1; rewrite ?c_dlc_nt). reflexivity.
    + reflexivity.
Qed.
Lemma cf_ide_line : forall m, is_ident (g_name m) = true ->
  line_stmts ("  cframe->IDE = (uint8_t) " ++ g_name m ++ "_IDE;") [s_cf_ide m].
Proof.
  intros m IM. pose proof (c_ide_ident m IM) as II.
  change "_IDE;"%string with ("_IDE" ++ ";")%string. rewrite ?app_assoc, c_ide_fold.
  eapply stmt_line with (x := "cframe"%string)
    (l := [TP PArrow; TId "IDE"; TP (PBin OAsg); TP PLpar; TId "uint8_t"; TP PRpar; TId (c_ide m)]).
  - unfold lex. rewrite <- (app_nil_r (_ ++ _)) at 1. rewrite ?app_assoc.
    lexrun ltac:(rewrite lex_ident' by auto). lexend. reflexivity.
  - reflexivity.
  - reflexivity.
  - eapply parse_fin.
    + repeat (estep1; rewrite ?c_ide_nt). reflexivity.
    + reflexivity.
Qed.

(** ** Items *)

Fixpoint bytes_items (st : bool) (sgs : list signal) (n : nat) (i : Z) : items :=
  match n with
  | O => INil
  | S n' =>
      match byte_parts sgs i with
      | [] => bytes_items st sgs n' (i + 1)
      | l => ILine (or_line st i l) [s_or st i l] (bytes_items st sgs n' (i + 1))
      end
  end.

Definition inc_items (g : gendesc) (m : message) : items :=
  match roll_sig m with
  | None => INil
  | Some sg =>
      ICond false (n_useroll g)
        (ILine ("  _m->" ++ s_name sg ++ " = (_m->" ++ s_name sg ++ " + 1) & (0x"
                  ++ pX2 (roll_mask_of sg) ++ "U);") [s_inc sg] INil)
        false INil (" // " ++ n_useroll g) (ILine "" [] INil)
  end.
Definition csm0_items (g : gendesc) (m : message) : items :=
  match csm_sig m with
  | None => INil
  | Some sg =>
      ICond false (n_usecsm g) (ILine (csm0_line sg) [s_csm0 sg] INil)
        false INil (" // " ++ n_usecsm g) (ILine "" [] INil)
  end.
Fixpoint toS_items (g : gendesc) (sgs : list signal) : items :=
  match sgs with
  | [] => INil
  | sg :: r => if s_simple sg then toS_items g r else ILine (toS_line g sg) [s_toS g sg] (toS_items g r)
  end.
Definition phys_items (g : gendesc) (m : message) : items :=
  if g_hasphys m then
    ICond false (n_usesigfloat g) (toS_items g (g_sigs m)) false INil (" // " ++ n_usesigfloat g)
      (ILine "" [] INil)
  else INil.

(** the byte the checksum is written to: the first one it has bits in *)
Definition csm_byte (sg : signal) : Z :=
  match find (fun i => match sig_parts i sg with [] => false | _ => true end)
             [0; 1; 2; 3; 4; 5; 6; 7] with
  | Some i => i
  | None => 0
  end.
Definition csm_parts (sg : signal) : list part := sig_parts (csm_byte sg) sg.

Definition csm1_items (g : gendesc) (m : message) (st : bool) : items :=
  match csm_sig m with
  | None => INil
  | Some sg =>
      ICond false (n_usecsm g)
        (ILine (hash_line m sg st) [s_hash m sg st]
        (ILine (or_line st (csm_byte sg) (csm_parts sg)) [s_or st (csm_byte sg) (csm_parts sg)] INil))
        false INil (" // " ++ n_usecsm g) (ILine "" [] INil)
  end.
Definition tail_items (m : message) (st : bool) : items :=
  if st then
    ILine ("  cframe->MsgId = (uint32_t) " ++ g_name m ++ "_CANID;") [s_cf_id m]
    (ILine ("  cframe->DLC = (uint8_t) " ++ g_name m ++ "_DLC;") [s_cf_dlc m]
    (ILine ("  cframe->IDE = (uint8_t) " ++ g_name m ++ "_IDE;") [s_cf_ide m]
    (ILine ("  return " ++ g_name m ++ "_CANID;") [s_ret m] INil)))
  else
    ILine ("  *_len = (uint8_t) " ++ g_name m ++ "_DLC;") [s_len_out m]
    (ILine ("  *_ide = (uint8_t) " ++ g_name m ++ "_IDE;") [s_ide_out m]
    (ILine ("  return " ++ g_name m ++ "_CANID;") [s_ret m] INil)).

Definition pack_items (g : gendesc) (m : message) (st : bool) : items :=
  ILine (init_line g m st) [s_decl_i; s_for g m st]
  (ILine "" []
  (iapp (inc_items g m)
  (iapp (csm0_items g m)
  (iapp (phys_items g m)
  (iapp (bytes_items st (g_sigs m) (Z.to_nat (g_dlc m)) 0)
  (ILine "" []
  (iapp (csm1_items g m st) (tail_items m st)))))))).

(** ** The items are the emitted text *)

Lemma bytes_items_text : forall st sgs tb i,
  (forall j, (j < List.length tb)%nat -> nth j tb ""%string = pjoin (byte_parts sgs (i + Z.of_nat j))) ->
  pack_bytes (arr_text st) i tb = map L (flat (bytes_items st sgs (List.length tb) i)).
Proof.
  intros st sgs. induction tb as [|e tb IH]; intros i H; [reflexivity|].
  cbn [pack_bytes List.length bytes_items].
  assert (E : e = pjoin (byte_parts sgs i)).
  { specialize (H 0%nat ltac:(cbn [List.length]; lia)). cbn [nth] in H.
    replace (i + Z.of_nat 0) with i in H by lia. exact H. }
  assert (T : pack_bytes (arr_text st) (i + 1) tb
              = map L (flat (bytes_items st sgs (List.length tb) (i + 1)))).
  { apply IH. intros j J. specialize (H (S j) ltac:(cbn [List.length]; lia)). cbn [nth] in H.
    replace (i + Z.of_nat (S j)) with (i + 1 + Z.of_nat j) in H by lia. exact H. }
  rewrite T. subst e. destruct (byte_parts sgs i) as [|x l].
  - reflexivity.
  - replace (String.length (pjoin (x :: l)) <? 2)%nat with false
      by (pose proof (pjoin_long x l); symmetry; apply Nat.ltb_ge; lia).
    cbn [flat map List.app]. reflexivity.
Qed.

Lemma toS_items_text : forall g sgs,
  List.concat (map (fun sg =>
     if s_simple sg then []
     else [L ("  _m->" ++ s_name sg ++ " = (" ++ print_type (s_typero sg)
                ++ ") " ++ n_DRV g ++ "_" ++ s_name sg ++ "_toS(_m->"
                ++ s_namefloat sg ++ ");")%string]) sgs)
  = map L (flat (toS_items g sgs)).
Proof.
  induction sgs as [|sg r IH]; [reflexivity|]. cbn [map List.concat toS_items]. rewrite IH.
  destruct (s_simple sg); reflexivity.
Qed.

(** what the generator knows about the message after BuildCConvertExprs *)
Record loaded (m : message) (x : ciexpr) : Prop := {
  ld_msg : x_msg x = m;
  ld_tosig : x_tosig x = map uj (g_sigs m);
  ld_bytes : x_tobytes x = put_sigs (g_sigs m) (repeat ""%string (Z.to_nat (g_dlc m)));
  ld_csm : forall sg, csm_sig m = Some sg ->
    x_csmexpr x = pjoin (csm_parts sg) /\ x_csmbyte x = csm_byte sg
}.

(** the checksum signal lies in the first 8 bytes *)
Definition csm_in8 (m : message) : Prop :=
  forall sg, csm_sig m = Some sg -> in_frame (s_order sg) (s_start sg) (s_len sg) 8.

Lemma pjoin_empty : forall l, pjoin l = ""%string <-> l = [].
Proof.
  intros [|x l]; split; intros H; auto; [|discriminate].
  pose proof (pjoin_long x l) as P. rewrite H in P. cbn in P. lia.
Qed.

Lemma first_nonempty_parts : forall sg tb i,
  (forall j, (j < List.length tb)%nat -> nth j tb ""%string = pjoin (sig_parts (i + Z.of_nat j) sg)) ->
  first_nonempty i tb
  = match find (fun i => match sig_parts i sg with [] => false | _ => true end)
               (map (fun j => i + Z.of_nat j) (seq 0 (List.length tb))) with
    | Some k => Some (pjoin (sig_parts k sg), k)
    | None => None
    end.
Proof.
  intros sg. induction tb as [|e tb IH]; intros i H; [reflexivity|].
  cbn [first_nonempty List.length seq map find].
  assert (E : e = pjoin (sig_parts i sg)).
  { specialize (H 0%nat ltac:(cbn [List.length]; lia)). cbn [nth] in H.
    replace (i + Z.of_nat 0) with i in H by lia. exact H. }
  replace (i + Z.of_nat 0) with i by lia.
  assert (T : first_nonempty (i + 1) tb
    = match find (fun i => match sig_parts i sg with [] => false | _ => true end)
               (map (fun j => i + Z.of_nat j) (seq 1 (List.length tb))) with
      | Some k => Some (pjoin (sig_parts k sg), k)
      | None => None
      end).
  { rewrite IH.
    - rewrite <- seq_shift, map_map.
      rewrite (map_ext (fun j => i + 1 + Z.of_nat j) (fun j => i + Z.of_nat (S j))) by (intros; lia).
      reflexivity.
    - intros j J. specialize (H (S j) ltac:(cbn [List.length]; lia)). cbn [nth] in H.
      replace (i + Z.of_nat (S j)) with (i + 1 + Z.of_nat j) in H by lia. exact H. }
  rewrite T. subst e. destruct (sig_parts i sg) as [|x l] eqn:P.
  - cbn [pjoin pjoin_from fold_left]. reflexivity.
  - rewrite P. pose proof (pjoin_long x l). destruct (pjoin (x :: l)); [cbn in *; lia|reflexivity].
Qed.

Lemma nth_repeat_empty : forall n j, nth j (repeat ""%string n) ""%string = ""%string.
Proof. induction n; intros [|j]; cbn; auto. Qed.

Lemma csm_expr_ok : forall sg, sig_ok 8 sg ->
  exists s i, match first_nonempty 0 (put_chunks (s_name sg) (repeat ""%string 8) (sig_chunks sg)) with
              | Some p => p
              | None => (""%string, 0)
              end = (s, i) /\ s = pjoin (csm_parts sg) /\ i = csm_byte sg.
Proof.
  intros sg OK.
  assert (LB : forall c, In c (sig_chunks sg) -> 0 <= k_byte c < Z.of_nat (List.length (repeat ""%string 8))).
  { intros c I. rewrite repeat_length. apply (sig_chunks_good 8 sg OK ltac:(lia) c I). }
  rewrite (first_nonempty_parts sg).
  - rewrite put_chunks_length by exact LB. rewrite repeat_length.
    change (map (fun j => 0 + Z.of_nat j) (seq 0 8)) with [0; 1; 2; 3; 4; 5; 6; 7].
    unfold csm_parts, csm_byte.
    destruct (find _ _) as [k|] eqn:F.
    + do 2 eexists. split; [reflexivity|auto].
    + do 2 eexists. split; [reflexivity|]. split; auto.
      assert (E : sig_parts 0 sg = []).
      { pose proof (find_none _ _ F 0 ltac:(cbn; auto)) as H. cbn in H. destruct (sig_parts 0 sg); auto. discriminate. }
      now rewrite E.
  - intros j J. rewrite put_chunks_length in J by exact LB. rewrite repeat_length in J.
    rewrite Z.add_0_l.
    rewrite <- (Nat2Z.id j) at 1. rewrite put_chunks_nth; [| rewrite repeat_length; lia|exact LB].
    rewrite nth_repeat_empty. reflexivity.
Qed.

Lemma sig_ok_dlc : forall dlc dlc' sg, sig_ok dlc sg ->
  in_frame (s_order sg) (s_start sg) (s_len sg) dlc' -> sig_ok dlc' sg.
Proof. intros dlc dlc' sg [] I. constructor; auto. Qed.

Theorem load_message_ok : forall m, msg_ok m -> csm_in8 m ->
  exists x, load_message m = Ok x /\ loaded m x.
Proof.
  intros m MO C8. unfold load_message.
  pose proof (mo_dlc m MO) as D.
  rewrite build_exprs_ok.
  - cbn [bind]. destruct (csm_sig m) as [cs|] eqn:CS.
    + pose proof (mo_sigs m MO cs (csm_sig_in m cs CS)) as OK.
      pose proof (sig_ok_dlc _ 8 cs OK (C8 cs CS)) as OK8.
      rewrite print_signal_expr_chunks; [|eapply sane_ok; eauto|rewrite repeat_length; lia|
        rewrite repeat_length; exact (C8 cs CS)].
      fold (sig_chunks cs). cbn [bind snd].
      destruct (csm_expr_ok cs OK8) as (s & i & E & E1 & E2). rewrite E.
      eexists. split; [reflexivity|]. constructor; auto.
      intros sg H. rewrite CS in H. injection H as <-. cbn. auto.
    + eexists. split; [reflexivity|]. constructor; auto. intros sg H. congruence.
  - rewrite repeat_length. lia.
  - intros sg S. rewrite repeat_length, Z2Nat.id by lia. now apply (mo_sigs m MO).
Qed.

Lemma pack_items_text : forall g m x st, msg_ok m -> loaded m x ->
  exists c, pack_common g (arr_text st) x = Ok c /\
  (c ++ map L (flat (tail_items m st)))%list = map L (flat (pack_items g m st)).
Proof.
  intros g m x st MO [LM LT LB LC]. unfold pack_common. rewrite LM, LT.
  assert (R : exists rl, (match roll_sig m with
              | None => Ok []
              | Some sg =>
                  do k <- roll_mask sg;
                  Ok [L ("#ifdef " ++ n_useroll g);
                      L ("  _m->" ++ s_name sg ++ " = (_m->" ++ s_name sg ++ " + 1) & (0x"
                           ++ pX2 k ++ "U);");
                      L ("#endif // " ++ n_useroll g); nls 1]
              end) = Ok rl /\ rl = map L (flat (inc_items g m))).
  { unfold inc_items. destruct (roll_sig m) as [rs|] eqn:RS; [|eexists; split; reflexivity].
    destruct (mo_roll m MO rs RS) as [RL _].
    unfold roll_mask. replace (s_len rs <? 31) with true by lia. cbn [bind].
    rewrite Z.shiftl_1_l. fold (roll_mask_of rs).
    eexists. split; reflexivity. }
  destruct R as (rl & R & RE). rewrite R. cbn [bind]. eexists. split; [reflexivity|].
  unfold pack_items. cbn [flat map]. rewrite !flat_iapp. cbn [flat map]. rewrite !map_app. cbn [map].
  rewrite !flat_iapp, !map_app.
  rewrite RE.
  assert (BT : pack_bytes (arr_text st) 0 (x_tobytes x)
               = map L (flat (bytes_items st (g_sigs m) (Z.to_nat (g_dlc m)) 0))).
  { pose proof (mo_dlc m MO) as D.
    assert (BB : forall sg c, In sg (g_sigs m) -> In c (sig_chunks sg) ->
        0 <= k_byte c < Z.of_nat (List.length (repeat ""%string (Z.to_nat (g_dlc m))))).
    { intros sg c S I. rewrite repeat_length, Z2Nat.id by lia.
      apply (sig_chunks_good (g_dlc m) sg (mo_sigs m MO sg S) ltac:(lia) c I). }
    rewrite (bytes_items_text st (g_sigs m)).
    - rewrite LB, put_sigs_length by exact BB. now rewrite repeat_length.
    - rewrite LB. intros j J. rewrite put_sigs_length in J by exact BB. rewrite repeat_length in J.
      rewrite Z.add_0_l. rewrite <- (Nat2Z.id j) at 1.
      rewrite put_sigs_nth; [|rewrite repeat_length; lia|exact BB].
      rewrite nth_repeat_empty. reflexivity. }
  rewrite BT.
  assert (FN : firstn (List.length (map uj (g_sigs m))) (g_sigs m) = g_sigs m)
    by (rewrite map_length; apply firstn_all). rewrite FN.
  assert (PH : (if g_hasphys m then
                ([L ("#ifdef " ++ n_usesigfloat g)]
                   ++ List.concat (map (fun sg =>
                        if s_simple sg then []
                        else [L ("  _m->" ++ s_name sg ++ " = (" ++ print_type (s_typero sg)
                                   ++ ") " ++ n_DRV g ++ "_" ++ s_name sg ++ "_toS(_m->"
                                   ++ s_namefloat sg ++ ");")%string])
                        (g_sigs m))
                   ++ [L ("#endif // " ++ n_usesigfloat g); nls 1])%list
              else []) = map L (flat (phys_items g m))).
  { unfold phys_items. destruct (g_hasphys m); [|reflexivity].
    rewrite toS_items_text. cbn [flat List.app map]. rewrite !map_app. reflexivity. }
  rewrite PH.
  unfold csm0_items, csm1_items, hash_line, or_line.
  destruct (csm_sig m) as [cs|] eqn:CS.
  - destruct (LC cs eq_refl) as [C1 C2]. rewrite C1, C2.
    cbn [flat map List.app]. rewrite <- !List.app_assoc. cbn [List.app]. rewrite <- !List.app_assoc. cbn [List.app]. reflexivity.
  - cbn [flat map List.app]. rewrite <- !List.app_assoc. cbn [List.app]. rewrite <- ?List.app_assoc. cbn [List.app]. reflexivity.
Qed.

Corollary pack_body_text : forall g m x (st : bool), msg_ok m -> loaded m x ->
  (if st then pack_struct_body g x else pack_array_body g x)
  = Ok (L "{" :: map L (flat (pack_items g m st)) ++ [L "}"; nls 1])%list.
Proof.
  intros g m x st MO LD. pose proof (ld_msg m x LD) as LM.
  destruct (pack_items_text g m x st MO LD) as (c & C & E).
  destruct st; cbn [arr_text] in C.
  - unfold pack_struct_body. rewrite C, LM. cbn [bind]. rewrite <- E. cbn [List.app]. rewrite <- List.app_assoc. reflexivity.
  - unfold pack_array_body. rewrite C, LM. cbn [bind]. rewrite <- E. cbn [List.app]. rewrite <- List.app_assoc. reflexivity.
Qed.

(** ** Well-formedness *)

(** the line of every byte fits into the buffer of the writer *)
Definition few_parts (m : message) : Prop :=
  forall i, Z.of_nat (load (byte_parts (g_sigs m) i)) <= 9600.

Lemma byte_parts_in : forall sgs i x, In x (byte_parts sgs i) ->
  In (fst x) sgs /\ In (snd x) (sig_chunks (fst x)) /\ k_byte (snd x) = i.
Proof.
  intros sgs i [sg ch] IN. unfold byte_parts in IN. apply in_flat_map in IN.
  destruct IN as (sg' & S & IN). unfold sig_parts in IN. apply in_map_iff in IN.
  destruct IN as (ch' & E & F). injection E as -> ->. apply filter_In in F. cbn [fst snd].
  destruct F. repeat split; auto. lia.
Qed.
Lemma sig_parts_in : forall sg i x, In x (sig_parts i sg) ->
  fst x = sg /\ In (snd x) (sig_chunks sg) /\ k_byte (snd x) = i.
Proof.
  intros sg i [s ch] IN. unfold sig_parts in IN. apply in_map_iff in IN.
  destruct IN as (ch' & E & F). injection E as -> ->. apply filter_In in F. cbn [fst snd].
  destruct F. repeat split; auto. lia.
Qed.

Lemma csm_byte_range : forall sg, 0 <= csm_byte sg < 8.
Proof.
  intros sg. unfold csm_byte. destruct (find _ _) as [k|] eqn:F; [|lia].
  apply find_some in F. destruct F as [F _]. cbn in F. lia.
Qed.
Lemma csm_parts_nonempty : forall sg, sig_ok 8 sg -> csm_parts sg <> [].
Proof.
  intros sg OK E. unfold csm_parts in E.
  assert (F : find (fun i => match sig_parts i sg with [] => false | _ => true end)
     [0; 1; 2; 3; 4; 5; 6; 7] = None).
  { unfold csm_byte in E. destruct (find _ _) as [k|] eqn:F; auto.
    apply find_some in F. destruct F as [_ F]. cbn in F. rewrite E in F. discriminate. }
  pose proof (sig_chunks_nonempty sg) as N.
  destruct (sig_chunks sg) as [|c l] eqn:SC; [congruence|].
  assert (I : In c (sig_chunks sg)) by (rewrite SC; now left).
  pose proof (proj2 (sig_chunks_good 8 sg OK ltac:(lia) c I)) as B.
  assert (K : In (k_byte c) [0; 1; 2; 3; 4; 5; 6; 7]) by (cbn; lia).
  pose proof (find_none _ _ F _ K) as H. cbn beta in H.
  assert (IP : In (sg, c) (sig_parts (k_byte c) sg)).
  { unfold sig_parts. apply in_map. apply filter_In. split; auto. lia. }
  destruct (sig_parts (k_byte c) sg); [destruct IP|discriminate].
Qed.

Lemma sig_parts_len : forall sg i, (List.length (sig_parts i sg) <= List.length (sig_chunks sg))%nat.
Proof.
  intros. unfold sig_parts. rewrite map_length. generalize (sig_chunks sg).
  induction l; cbn; auto. destruct (_ =? _); cbn; lia.
Qed.

Lemma arr_text_raw : forall st, no_nl (arr_text st) = true /\ (String.length (arr_text st) <= 12)%nat.
Proof. destruct st; cbn; split; auto; lia. Qed.

Lemma load_len : forall l, (forall x, In x l -> (String.length (s_name (fst x)) <= 1000)%nat) ->
  (load l <= 1063 * List.length l)%nat.
Proof.
  induction l as [|x l IH]; intros G; cbn [load List.length]; [lia|].
  specialize (IH (fun d D => G d (or_intror D))). specialize (G x (or_introl eq_refl)). lia.
Qed.

Lemma or_line_raw : forall st i l, 0 <= i < 1000 -> Z.of_nat (load l) <= 9600 ->
  (forall x, In x l -> good (snd x) /\ (String.length (s_name (fst x)) <= 1000)%nat /\ is_ident (s_name (fst x)) = true) ->
  raw_ok (or_line st i l).
Proof.
  intros st i l I LEN G. destruct (arr_text_raw st) as [A1 A2].
  apply raw_intro.
  - unfold or_line. rewrite decZ_num by lia. nonl. rewrite A1, no_nl_pjoin; [reflexivity|].
    intros x X. apply (G x X).
  - unfold or_line. rewrite decZ_num by lia.
    assert (LP : (String.length (pjoin l) <= load l)%nat).
    { apply pjoin_len. intros x X. apply (G x X). }
    assert (LN : (String.length (num i) <= 10)%nat).
    { unfold num. pose proof (dec_len_le (Z.to_N i)) as H.
      assert ((N.log2 (Z.to_N i) < 10)%N).
      { destruct (N.eq_dec (Z.to_N i) 0) as [->|NZ]; [cbn; lia|]. apply N.log2_lt_pow2; [lia|].
        change (2 ^ 10)%N with 1024%N. lia. }
      lia. }
    rewrite !app_len. cbn [String.length]. lia.
Qed.

Definition parts_fine (l : list part) : Prop :=
  forall x, In x l -> good (snd x) /\ (String.length (s_name (fst x)) <= 1000)%nat /\
                      is_ident (s_name (fst x)) = true.
Lemma byte_parts_fine : forall m i, msg_ok m -> parts_fine (byte_parts (g_sigs m) i).
Proof.
  intros m i MO x X. destruct (byte_parts_in _ _ _ X) as (S & C & _).
  pose proof (mo_sigs m MO _ S) as OK. pose proof (mo_dlc m MO).
  destruct (sig_chunks_good _ _ OK ltac:(lia) _ C). split; auto. split; apply OK.
Qed.
Lemma csm_parts_fine : forall dlc sg, sig_ok dlc sg -> dlc <= 64 -> parts_fine (csm_parts sg).
Proof.
  intros dlc sg OK D x X. destruct (sig_parts_in _ _ _ X) as (S & C & _). rewrite S.
  destruct (sig_chunks_good _ _ OK D _ C). split; auto. split; apply OK.
Qed.

Lemma bytes_items_wf : forall st m n i, msg_ok m -> few_parts m -> 0 <= i -> i + Z.of_nat n <= 64 ->
  iwf (bytes_items st (g_sigs m) n i) /\ istm (bytes_items st (g_sigs m) n i) /\
  Forall raw_ok (flat (bytes_items st (g_sigs m) n i)).
Proof.
  intros st m n. induction n as [|n IH]; intros i MO FP I N; [cbn; auto|].
  cbn [bytes_items]. specialize (IH (i + 1) MO FP ltac:(lia) ltac:(lia)).
  pose proof (byte_parts_fine m i MO) as PF. pose proof (FP i) as LEN.
  destruct (byte_parts (g_sigs m) i) as [|x l] eqn:E; [exact IH|].
  destruct IH as (I1 & I2 & I3). cbn [iwf istm flat]. split; [|split].
  - split; auto; unfold or_line; destruct st; reflexivity.
  - split; auto. apply or_line_stmts; [lia|discriminate|].
    intros y Y. destruct (PF y Y) as (A & B & C). split; auto.
  - constructor; auto. apply or_line_raw; auto; lia.
Qed.

Lemma toS_items_wf : forall g dlc sgs, gen_ok g -> (forall sg, In sg sgs -> sig_ok dlc sg) ->
  iwf (toS_items g sgs) /\ istm (toS_items g sgs) /\ Forall raw_ok (flat (toS_items g sgs)).
Proof.
  intros g dlc sgs GO. induction sgs as [|sg r IH]; intros OK; [cbn; auto|].
  specialize (IH (fun s I => OK s (or_intror I))). pose proof (OK sg (or_introl eq_refl)) as O.
  cbn [toS_items]. destruct (s_simple sg) eqn:S; auto.
  destruct IH as (I1 & I2 & I3). cbn [iwf istm flat]. split; [|split].
  - split; auto.
  - split; auto. eapply toS_line_stmts; eauto.
  - constructor; auto. destruct (ok_phys _ _ O S) as [F1 F2].
    pose proof (ok_name_len _ _ O). pose proof (go_len g GO) as (G1 & G2 & G3 & G4 & G5 & G6).
    pose proof (type_len (s_typero sg)).
    apply raw_intro.
    + unfold toS_line. nonl. rewrite (no_nl_ident' _ (ok_name _ _ O)), (no_nl_ident' _ F1), (no_nl_ident' _ (go_DRV g GO)).
      reflexivity.
    + unfold toS_line. rewrite !app_len. cbn [String.length]. lia.
Qed.

Lemma cond_wf : forall x a n, is_ident x = true -> (String.length x <= n)%nat -> (n <= 5000)%nat ->
  iwf a -> istm a -> Forall raw_ok (flat a) ->
  let i := ICond false x a false INil (" // " ++ x) (ILine "" [] INil) in
  iwf i /\ istm i /\ Forall raw_ok (flat i).
Proof.
  intros x a n ID LX LN W S R. cbn [iwf istm flat]. split; [|split].
  - repeat split; auto. right. eexists. reflexivity.
  - repeat split; auto using line_empty.
  - constructor; [apply (raw_ifdef false); auto; lia|]. apply Forall_app. split; auto. cbn [List.app].
    constructor; [apply raw_endif; auto; lia|]. constructor; auto using raw_empty.
Qed.

Lemma iapp_wf : forall a b, (iwf a /\ istm a /\ Forall raw_ok (flat a)) ->
  (iwf b /\ istm b /\ Forall raw_ok (flat b)) ->
  iwf (iapp a b) /\ istm (iapp a b) /\ Forall raw_ok (flat (iapp a b)).
Proof.
  intros a b (A1 & A2 & A3) (B1 & B2 & B3). split; [|split].
  - now apply iwf_iapp.
  - now apply istm_iapp.
  - rewrite flat_iapp. apply Forall_app. auto.
Qed.
Lemma line_wf : forall s ss r, directive s = None -> line_stmts s ss -> raw_ok s ->
  (iwf r /\ istm r /\ Forall raw_ok (flat r)) ->
  iwf (ILine s ss r) /\ istm (ILine s ss r) /\ Forall raw_ok (flat (ILine s ss r)).
Proof. intros s ss r A B C (D & E & F). cbn [iwf istm flat]. auto. Qed.
Lemma nil_wf : iwf INil /\ istm INil /\ Forall raw_ok (flat INil).
Proof. cbn. auto. Qed.

Lemma pack_items_wf : forall g m st, gen_ok g -> msg_ok m -> csm_in8 m -> few_parts m ->
  iwf (pack_items g m st) /\ istm (pack_items g m st) /\ Forall raw_ok (flat (pack_items g m st)).
Proof.
  intros g m st GO MO C8 FP.
  pose proof (go_len g GO) as (G1 & G2 & G3 & G4 & G5 & G6).
  pose proof (mo_name_len m MO) as NL. pose proof (no_nl_ident' _ (mo_name m MO)) as NN.
  pose proof (mo_dlc m MO) as D. destruct (arr_text_raw st) as [A1 A2].
  unfold pack_items. apply line_wf; [reflexivity| | |].
  { apply init_line_stmts; [apply GO|apply MO]. }
  { apply raw_intro; unfold init_line, validate_name, initial_name.
    - nonl. rewrite NN, A1, (no_nl_ident' _ (go_DRV g GO)). reflexivity.
    - rewrite !app_len. cbn [String.length]. lia. }
  apply line_wf; [reflexivity|apply line_empty|apply raw_empty|].
  apply iapp_wf.
  { unfold inc_items. destruct (roll_sig m) as [sg|] eqn:R; [|apply nil_wf].
    pose proof (mo_sigs m MO sg (roll_sig_in m sg R)) as OK.
    destruct (mo_roll m MO sg R) as (LR & _). pose proof (ok_len _ _ OK) as LEN.
    pose proof (ok_name _ _ OK) as ID. pose proof (no_nl_ident' _ ID) as NS.
    pose proof (ok_name_len _ _ OK) as NSL.
    pose proof (pX2_len (s_len sg) ltac:(lia)) as XL. pose proof (pX2_nonl (s_len sg) ltac:(lia)) as XN.
    unfold roll_mask_of.
    apply (cond_wf _ _ 1100); [apply GO|lia|lia| | |].
    - cbn. auto.
    - cbn [istm]. split; auto. apply next_line; auto; lia.
    - constructor; auto. apply raw_intro; [nonl; now rewrite NS, XN|rewrite !app_len; cbn [String.length]; lia]. }
  apply iapp_wf.
  { unfold csm0_items. destruct (csm_sig m) as [sg|] eqn:C; [|apply nil_wf].
    pose proof (mo_sigs m MO sg (csm_sig_in m sg C)) as OK.
    pose proof (no_nl_ident' _ (ok_name _ _ OK)) as NS. pose proof (ok_name_len _ _ OK) as NSL.
    pose proof (type_len (s_typero sg)).
    apply (cond_wf _ _ 1100); [apply GO|lia|lia| | |].
    - cbn. auto.
    - cbn [istm]. split; auto. apply csm0_line_stmts. apply OK.
    - constructor; auto. apply raw_intro; unfold csm0_line; [nonl; now rewrite NS|rewrite !app_len; cbn [String.length]; lia]. }
  apply iapp_wf.
  { unfold phys_items. destruct (g_hasphys m); [|apply nil_wf].
    destruct (toS_items_wf g (g_dlc m) (g_sigs m) GO (mo_sigs m MO)) as (T1 & T2 & T3).
    apply (cond_wf _ _ 1100); auto; [apply GO|lia]. }
  apply iapp_wf.
  { apply bytes_items_wf; auto; lia. }
  apply line_wf; [reflexivity|apply line_empty|apply raw_empty|].
  apply iapp_wf.
  { unfold csm1_items. destruct (csm_sig m) as [sg|] eqn:C; [|apply nil_wf].
    pose proof (mo_sigs m MO sg (csm_sig_in m sg C)) as OK.
    pose proof (sig_ok_dlc _ 8 sg OK (C8 sg C)) as OK8.
    pose proof (no_nl_ident' _ (ok_name _ _ OK)) as NS. pose proof (ok_name_len _ _ OK) as NSL.
    destruct (mo_csm m MO sg C) as (M1 & M2 & M3 & M4).
    pose proof (csm_parts_fine 8 sg OK8 ltac:(lia)) as PF. pose proof (csm_byte_range sg) as CB.
    apply (cond_wf _ _ 1100); [apply GO|lia|lia| | |].
    - cbn [iwf]. split; [reflexivity|]. split; auto; unfold or_line; destruct st; reflexivity.
    - cbn [istm]. split; [|split; auto].
      + apply hash_line_stmts; auto; [apply MO|apply OK].
      + apply or_line_stmts; [lia|now apply csm_parts_nonempty|].
        intros y Y. destruct (PF y Y) as (P1 & P2 & P3). split; auto.
    - cbn [flat]. constructor; [|constructor; auto].
      + apply raw_intro; unfold hash_line; rewrite swrap_small by lia.
        * nonl. rewrite NS, A1, NN, (no_nl_ident' _ M1). rewrite decZ_num by lia. now rewrite no_nl_num.
        * rewrite decZ_num by lia. unfold num.
          pose proof (dec_len32 (Z.to_N (g_csmop m))) as DL.
          change (2 ^ 31) with 2147483648 in M4. change (2 ^ 32)%N with 4294967296%N in DL.
          specialize (DL ltac:(lia)).
          rewrite !app_len. cbn [String.length]. lia.
      + apply or_line_raw; auto; [lia|].
        pose proof (sig_parts_len sg (csm_byte sg)) as H.
        pose proof (chunks_len (s_order sg) (s_start sg) (s_len sg) (ok_start _ _ OK) (ok_len _ _ OK)) as H0.
        assert (H1 : (load (csm_parts sg) <= 1063 * List.length (csm_parts sg))%nat)
          by (apply load_len; intros x X; apply (PF x X)).
        unfold csm_parts in *. unfold sig_chunks in H. lia. }
  pose proof (mo_name m MO) as IM.
  assert (RT : raw_ok ("  return " ++ g_name m ++ "_CANID;")).
  { apply raw_intro; [nonl; now rewrite NN|rewrite !app_len; cbn [String.length]; lia]. }
  unfold tail_items. destruct st.
  - apply line_wf; [reflexivity|now apply cf_id_line|apply raw_intro; [nonl; now rewrite NN|rewrite !app_len; cbn [String.length]; lia]|].
    apply line_wf; [reflexivity|now apply cf_dlc_line|apply raw_intro; [nonl; now rewrite NN|rewrite !app_len; cbn [String.length]; lia]|].
    apply line_wf; [reflexivity|now apply cf_ide_line|apply raw_intro; [nonl; now rewrite NN|rewrite !app_len; cbn [String.length]; lia]|].
    apply line_wf; [reflexivity|now apply ret_line|exact RT|apply nil_wf].
  - apply line_wf; [reflexivity|now apply len_line|apply raw_intro; [nonl; now rewrite NN|rewrite !app_len; cbn [String.length]; lia]|].
    apply line_wf; [reflexivity|now apply ide_line|apply raw_intro; [nonl; now rewrite NN|rewrite !app_len; cbn [String.length]; lia]|].
    apply line_wf; [reflexivity|now apply ret_line|exact RT|apply nil_wf].
Qed.
