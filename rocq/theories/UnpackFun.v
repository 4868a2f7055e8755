(** The monitor section and the complete body of an emitted Unpack function. *)

From Coq Require Import ZArith NArith List String Ascii Bool Lia ZifyBool Permutation.
From Verif Require Import Base Dbl CSyntax CSem CRun Types Formatter SigPrinter Writer Settings
  MainGen CodecSpec MsgSpec LexLemmas BitLemmas CSemLemmas Chunks UnpackProof PPProof BodyLemmas
  UnpackBody.
Import ListNotations.
Open Scope Z_scope.

(** ** Items *)

Definition c_dlc (m : message) : string := (g_name m ++ "_DLC")%string.
Definition c_id (m : message) : string := (g_name m ++ "_CANID")%string.
Definition c_ide (m : message) : string := (g_name m ++ "_IDE")%string.
Definition mexp (f : string) : expr := EFld false (fexp "mon1") f.

Definition tick_call : expr := ECall "GetSystemTick" [].
Definition hash_call (arr : expr) (m : message) : expr :=
  ECall "GetFrameHash" [arr; EId (c_dlc m); EId (c_id m); EId (g_csmmethod m);
                        EInt I32 (g_csmop m)].
Definition fmon_name (g : gendesc) (m : message) : string :=
  ("FMon_" ++ g_name m ++ "_" ++ n_drv g)%string.
Definition fmon_args (m : message) : list expr :=
  [EUn UAddr (fexp "mon1"); EId (c_id m)].

Definition s_dlcerr (m : message) : stmt :=
  SExpr (EBin OAsg (mexp "dlc_error") (EBin OLt (EId "dlc_") (EId (c_dlc m)))).
Definition s_cycle : stmt := SExpr (EBin OAsg (mexp "last_cycle") tick_call).
Definition s_cnt : stmt := SExpr (EPost (mexp "frame_cnt")).
Definition s_rollerr (sg : signal) : stmt :=
  SExpr (EBin OAsg (mexp "roll_error")
           (EBin ONe (fexp (s_name sg)) (fexp (s_name sg ++ "_expt")))).
Definition roll_mask_of (sg : signal) : Z := 2 ^ s_len sg - 1.
Definition s_expt (sg : signal) : stmt :=
  SExpr (EBin OAsg (fexp (s_name sg ++ "_expt"))
           (EBin OAnd (EBin OAdd (fexp (s_name sg)) (EInt I32 1)) (EInt U32 (roll_mask_of sg)))).
Definition s_csmerr (m : message) (sg : signal) : stmt :=
  SExpr (EBin OAsg (mexp "csm_error")
           (EBin ONe (EUn (UCast "uint8_t") (hash_call (EId "_d") m)) (fexp (s_name sg)))).
Definition s_fmon (g : gendesc) (m : message) : stmt := SExpr (ECall (fmon_name g m) (fmon_args m)).
Definition s_ret (m : message) : stmt := SReturn (EId (c_id m)).

Definition roll_items (g : gendesc) (m : message) : items :=
  match roll_sig m with
  | None => INil
  | Some sg =>
      ICond false (n_useroll g)
        (ILine ("  _m->mon1.roll_error = (_m->" ++ s_name sg ++ " != _m->" ++ s_name sg
                  ++ "_expt);") [s_rollerr sg]
        (ILine ("  _m->" ++ s_name sg ++ "_expt = (_m->" ++ s_name sg ++ " + 1) & (0x"
                  ++ pX2 (roll_mask_of sg) ++ "U);") [s_expt sg] INil))
        false INil (" // " ++ n_useroll g) (ILine "" [] INil)
  end.

Definition csm_items (g : gendesc) (m : message) : items :=
  match csm_sig m with
  | None => INil
  | Some sg =>
      ICond false (n_usecsm g)
        (ILine ("  _m->mon1.csm_error = (((uint8_t)GetFrameHash(_d, " ++ g_name m ++ "_DLC, "
                       ++ g_name m ++ "_CANID, " ++ g_csmmethod m ++ ", "
                       ++ decZ (swrap 32 (g_csmop m)) ++ ")) != (_m->" ++ s_name sg ++ "));")
           [s_csmerr m sg] INil)
        false INil (" // " ++ n_usecsm g) (ILine "" [] INil)
  end.

Definition mon_items (g : gendesc) (m : message) : items :=
  ICond false (n_usemon g)
    (ILine ("  _m->mon1.dlc_error = (dlc_ < " ++ g_name m ++ "_DLC);") [s_dlcerr m]
    (ILine "  _m->mon1.last_cycle = GetSystemTick();" [s_cycle]
    (ILine "  _m->mon1.frame_cnt++;" [s_cnt]
    (ILine "" []
    (iapp (roll_items g m)
    (iapp (csm_items g m)
    (ILine ("  " ++ ("FMon_" ++ g_name m ++ "_" ++ n_drv g) ++ "(&_m->mon1, " ++ g_name m
                 ++ "_CANID);") [s_fmon g m] INil)))))))
    false INil (" // " ++ n_usemon g)
    (ILine "" []
    (ILine ("  return " ++ g_name m ++ "_CANID;") [s_ret m] INil)).

Definition unpack_items (g : gendesc) (m : message) : items :=
  iapp (sigs_items g (g_sigs m)) (mon_items g m).

Lemma unpack_items_text : forall g x,
  x_tosig x = map uj (g_sigs (x_msg x)) -> msg_ok (x_msg x) ->
  unpack_body g x = Ok (map L (flat (unpack_items g (x_msg x)))).
Proof.
  intros g x E MO. unfold unpack_body, unpack_items. rewrite E.
  rewrite flat_iapp, map_app, sigs_items_text.
  unfold mon_items, roll_items, csm_items.
  destruct (roll_sig (x_msg x)) as [rs|] eqn:R.
  - destruct (mo_roll _ MO rs R) as [RL _].
    unfold roll_mask. replace (s_len rs <? 31) with true by lia. cbn [bind].
    rewrite Z.shiftl_1_l. fold (roll_mask_of rs).
    destruct (csm_sig (x_msg x)) as [cs|]; cbn [iapp flat map List.app]; reflexivity.
  - cbn [bind]. destruct (csm_sig (x_msg x)) as [cs|]; cbn [iapp flat map List.app]; reflexivity.
Qed.

(** ** Statements of the lines *)

Lemma c_dlc_ident : forall m, is_ident (g_name m) = true -> is_ident (c_dlc m) = true.
Proof. intros. apply ident_app; auto. Qed.
Lemma c_id_ident : forall m, is_ident (g_name m) = true -> is_ident (c_id m) = true.
Proof. intros. apply ident_app; auto. Qed.
Lemma c_ide_ident : forall m, is_ident (g_name m) = true -> is_ident (c_ide m) = true.
Proof. intros. apply ident_app; auto. Qed.
Lemma c_dlc_nt : forall m, is_typename (c_dlc m) = false.
Proof.
  intros. eapply not_typename; [unfold c_dlc; rewrite last_char_ends by discriminate; reflexivity| |];
    reflexivity.
Qed.
Lemma c_id_nt : forall m, is_typename (c_id m) = false.
Proof.
  intros. unfold c_id.
  destruct (is_typename (g_name m ++ "_CANID")) eqn:E; auto. exfalso.
  unfold is_typename, smem, typenames in E. cbn [existsb] in E.
  repeat (apply orb_true_iff in E; destruct E as [E|E]); try discriminate;
    apply String.eqb_eq in E; apply (f_equal last_char) in E;
    rewrite last_char_ends in E by discriminate; cbn in E; discriminate.
Qed.
Lemma c_ide_nt : forall m, is_typename (c_ide m) = false.
Proof.
  intros. eapply not_typename; [unfold c_ide; rewrite last_char_ends by discriminate; reflexivity| |];
    reflexivity.
Qed.

Lemma c_dlc_fold : forall m r, (g_name m ++ "_DLC" ++ r = c_dlc m ++ r)%string.
Proof. intros. unfold c_dlc. now rewrite app_assoc. Qed.
Lemma c_id_fold : forall m r, (g_name m ++ "_CANID" ++ r = c_id m ++ r)%string.
Proof. intros. unfold c_id. now rewrite app_assoc. Qed.
Lemma c_ide_fold : forall m r, (g_name m ++ "_IDE" ++ r = c_ide m ++ r)%string.
Proof. intros. unfold c_ide. now rewrite app_assoc. Qed.

Ltac esteps hyps := repeat (estep1; rewrite ?hyps).

Lemma dlcerr_line : forall m, is_ident (g_name m) = true ->
  line_stmts ("  _m->mon1.dlc_error = (dlc_ < " ++ g_name m ++ "_DLC);") [s_dlcerr m].
Proof.
  intros m ID. pose proof (c_dlc_ident m ID) as IC.
  change "_DLC);"%string with ("_DLC" ++ ");")%string. rewrite c_dlc_fold.
  eapply stmt_line with (x := "_m"%string)
    (l := [TP PArrow; TId "mon1"; TP PDot; TId "dlc_error"; TP (PBin OAsg); TP PLpar; TId "dlc_";
           TP (PBin OLt); TId (c_dlc m); TP PRpar]).
  - unfold lex. rewrite <- (app_nil_r (_ ++ _)) at 1. rewrite ?app_assoc.
    lexrun ltac:(rewrite lex_ident' by auto). lexend. reflexivity.
  - reflexivity.
  - reflexivity.
  - eapply parse_fin.
    + esteps c_dlc_nt. reflexivity.
    + reflexivity.
Qed.

Lemma cycle_line : line_stmts "  _m->mon1.last_cycle = GetSystemTick();" [s_cycle].
Proof. intros rs k. reflexivity. Qed.
Lemma cnt_line : line_stmts "  _m->mon1.frame_cnt++;" [s_cnt].
Proof. intros rs k. reflexivity. Qed.

Lemma expt_ident : forall s, is_ident s = true -> is_ident (s ++ "_expt") = true.
Proof. intros. apply ident_app; auto. Qed.

Lemma rollerr_line : forall nm, is_ident nm = true ->
  line_stmts ("  _m->mon1.roll_error = (_m->" ++ nm ++ " != _m->" ++ nm ++ "_expt);")
    [SExpr (EBin OAsg (mexp "roll_error") (EBin ONe (fexp nm) (fexp (nm ++ "_expt"))))].
Proof.
  intros nm ID. pose proof (expt_ident nm ID) as IE.
  change "_expt);"%string with ("_expt" ++ ");")%string.
  rewrite <- (app_assoc nm "_expt").
  eapply stmt_line with (x := "_m"%string)
    (l := [TP PArrow; TId "mon1"; TP PDot; TId "roll_error"; TP (PBin OAsg); TP PLpar; TId "_m";
           TP PArrow; TId nm; TP (PBin ONe); TId "_m"; TP PArrow; TId (nm ++ "_expt")%string;
           TP PRpar]).
  - set (e := (nm ++ "_expt")%string) in *.
    unfold lex. rewrite <- (app_nil_r (_ ++ _)) at 1. rewrite ?app_assoc.
    lexrun ltac:(rewrite lex_ident' by auto). lexend. reflexivity.
  - reflexivity.
  - reflexivity.
  - eapply parse_fin.
    + repeat estep1. reflexivity.
    + reflexivity.
Qed.

(** the printed mask is read back as the number *)
Lemma mask_word : forall len, 1 <= len < 31 ->
  word ("0x" ++ pX2 (2 ^ len - 1) ++ "U") = TInt U32 (2 ^ len - 1) /\
  all_chars is_idchar ("0x" ++ pX2 (2 ^ len - 1) ++ "U") = true.
Proof.
  intros len L.
  assert (H : forallb (fun n => let k := 2 ^ Z.of_nat n - 1 in
     match word ("0x" ++ pX2 k ++ "U") with TInt U32 z => z =? k | _ => false end
     && all_chars is_idchar ("0x" ++ pX2 k ++ "U")) (seq 1 30) = true) by (vm_compute; reflexivity).
  rewrite forallb_forall in H. specialize (H (Z.to_nat len)).
  rewrite Z2Nat.id in H by lia. cbv zeta in H.
  assert (I : In (Z.to_nat len) (seq 1 30)) by (apply in_seq; lia).
  specialize (H I). apply andb_true_iff in H. destruct H as [H1 H2]. split; [|exact H2].
  destruct (word _) as [| t z | | |]; try discriminate. destruct t; try discriminate.
  apply Z.eqb_eq in H1. now subst z.
Qed.
Lemma lex_word' : forall w c t r, w <> ""%string -> all_chars is_idchar w = true ->
  word_ends c = true ->
  lex_from LIdle (w ++ (String c t ++ r)) = word w :: lex_from LIdle (String c t ++ r).
Proof. intros. apply lex_word; auto. Qed.

(** lines of the form "_m->A = (_m->B + 1) & (0x..U);" *)
Definition next_rhs (b : string) (len : Z) : expr :=
  EBin OAnd (EBin OAdd (fexp b) (EInt I32 1)) (EInt U32 (2 ^ len - 1)).
Lemma next_line : forall a b len, is_ident a = true -> is_ident b = true -> 1 <= len < 31 ->
  line_stmts ("  _m->" ++ a ++ " = (_m->" ++ b ++ " + 1) & (0x" ++ pX2 (2 ^ len - 1) ++ "U);")
    [SExpr (EBin OAsg (fexp a) (next_rhs b len))].
Proof.
  intros a b len IA IB L.
  destruct (mask_word len L) as [MW MC].
  assert (MN : ("0x" ++ pX2 (2 ^ len - 1) ++ "U")%string <> ""%string) by discriminate.
  replace ("  _m->" ++ a ++ " = (_m->" ++ b ++ " + 1) & (0x" ++ pX2 (2 ^ len - 1) ++ "U);")%string
    with ("  _m->" ++ a ++ " = (_m->" ++ b ++ " + 1) & (" ++ ("0x" ++ pX2 (2 ^ len - 1) ++ "U")
            ++ ");")%string
    by (change " + 1) & (0x"%string with (" + 1) & (" ++ "0x")%string;
        change "U);"%string with ("U" ++ ");")%string; rewrite !app_assoc; reflexivity).
  set (w := ("0x" ++ pX2 (2 ^ len - 1) ++ "U")%string) in *. clearbody w.
  eapply stmt_line with (x := "_m"%string)
    (l := [TP PArrow; TId a; TP (PBin OAsg); TP PLpar; TId "_m"; TP PArrow; TId b;
           TP (PBin OAdd); TInt I32 1; TP PRpar; TP (PBin OAnd); TP PLpar; TInt U32 (2 ^ len - 1);
           TP PRpar]).
  - unfold lex. rewrite <- (app_nil_r (_ ++ _)) at 1. rewrite ?app_assoc.
    lexrun ltac:(first [rewrite lex_ident' by auto | rewrite (lex_word' w) by auto; rewrite MW]). lexend. reflexivity.
  - reflexivity.
  - reflexivity.
  - eapply parse_fin.
    + repeat estep1. reflexivity.
    + reflexivity.
Qed.

Lemma lex_decZ' : forall z c t r, 0 <= z < 2 ^ 31 -> word_ends c = true ->
  lex_from LIdle (decZ z ++ (String c t ++ r)) = TInt I32 z :: lex_from LIdle (String c t ++ r).
Proof.
  intros z c t r Z W. rewrite decZ_num by lia. unfold num. cbn [String.append].
  rewrite lex_dec; auto; [|lia]. now rewrite Z2N.id by lia.
Qed.

Lemma swrap_small : forall w z, 1 <= w -> 0 <= z < 2 ^ (w - 1) -> swrap w z = z.
Proof.
  intros w z W Z. unfold swrap.
  assert (2 ^ w = 2 * 2 ^ (w - 1)) by (rewrite <- Z.pow_succ_r by lia; f_equal; lia).
  rewrite Z.mod_small by lia. replace (z <? 2 ^ (w - 1)) with true by lia. reflexivity.
Qed.

Lemma csmerr_line : forall m nm, is_ident (g_name m) = true -> is_ident nm = true ->
  is_ident (g_csmmethod m) = true -> is_typename (g_csmmethod m) = false ->
  0 <= g_csmop m < 2 ^ 31 ->
  line_stmts ("  _m->mon1.csm_error = (((uint8_t)GetFrameHash(_d, " ++ g_name m ++ "_DLC, "
                       ++ g_name m ++ "_CANID, " ++ g_csmmethod m ++ ", "
                       ++ decZ (swrap 32 (g_csmop m)) ++ ")) != (_m->" ++ nm ++ "));")
    [SExpr (EBin OAsg (mexp "csm_error")
           (EBin ONe (EUn (UCast "uint8_t") (hash_call (EId "_d") m)) (fexp nm)))].
Proof.
  intros m nm IM IN IC NC OP. rewrite swrap_small by lia.
  pose proof (c_dlc_ident m IM) as ID. pose proof (c_id_ident m IM) as II.
  change "_DLC, "%string with ("_DLC" ++ ", ")%string.
  change "_CANID, "%string with ("_CANID" ++ ", ")%string.
  rewrite ?app_assoc, c_dlc_fold, c_id_fold.
  eapply stmt_line with (x := "_m"%string)
    (l := [TP PArrow; TId "mon1"; TP PDot; TId "csm_error"; TP (PBin OAsg); TP PLpar; TP PLpar;
           TP PLpar; TId "uint8_t"; TP PRpar; TId "GetFrameHash"; TP PLpar; TId "_d"; TP PComma;
           TId (c_dlc m); TP PComma; TId (c_id m); TP PComma; TId (g_csmmethod m); TP PComma;
           TInt I32 (g_csmop m); TP PRpar; TP PRpar; TP (PBin ONe); TP PLpar; TId "_m"; TP PArrow;
           TId nm; TP PRpar; TP PRpar]).
  - unfold lex. rewrite <- (app_nil_r (_ ++ _)) at 1. rewrite ?app_assoc.
    lexrun ltac:(first [rewrite lex_ident' by auto | rewrite lex_decZ' by auto]). lexend. reflexivity.
  - reflexivity.
  - reflexivity.
  - eapply parse_fin.
    + repeat (estep1; rewrite ?c_dlc_nt, ?c_id_nt, ?NC). reflexivity.
    + reflexivity.
Qed.

Lemma fmon_ident : forall g m, is_ident (g_name m) = true -> all_chars is_idchar (n_drv g) = true ->
  is_ident (fmon_name g m) = true.
Proof.
  intros g m I D. unfold fmon_name. apply ident_app; [reflexivity|].
  rewrite !all_chars_app, (ident_chars _ I), D. reflexivity.
Qed.
Lemma fmon_head : forall g m, exists r, fmon_name g m = ("FMon_" ++ r)%string.
Proof. intros. unfold fmon_name. eauto. Qed.
Lemma FMon_plain : forall r, plain_start ("FMon_" ++ r) = true.
Proof.
  intros r. unfold plain_start, is_typename, smem, typenames.
  cbn [String.append String.eqb Ascii.eqb Bool.eqb existsb orb negb]. reflexivity.
Qed.

Lemma fmon_line : forall g m, is_ident (g_name m) = true -> all_chars is_idchar (n_drv g) = true ->
  line_stmts ("  " ++ ("FMon_" ++ g_name m ++ "_" ++ n_drv g) ++ "(&_m->mon1, " ++ g_name m
                 ++ "_CANID);") [s_fmon g m].
Proof.
  intros g m IM ID. pose proof (fmon_ident g m IM ID) as IF. pose proof (c_id_ident m IM) as II.
  fold (fmon_name g m). pose proof (fmon_head g m) as [r HR].
  assert (PS : plain_start (fmon_name g m) = true) by (rewrite HR; apply FMon_plain).
  assert (NT : is_typename (fmon_name g m) = false).
  { unfold plain_start in PS. apply negb_true_iff in PS. apply orb_false_iff in PS. tauto. }
  unfold s_fmon, fmon_args.
  set (f := fmon_name g m) in *. clearbody f.
  change "_CANID);"%string with ("_CANID" ++ ");")%string. rewrite c_id_fold.
  eapply stmt_line with (x := f)
    (l := [TP PLpar; TP (PBin OAnd); TId "_m"; TP PArrow; TId "mon1"; TP PComma; TId (c_id m);
           TP PRpar]); auto.
  - unfold lex. rewrite <- (app_nil_r (_ ++ _)) at 1. rewrite ?app_assoc.
    lexrun ltac:(rewrite lex_ident' by auto). lexend. reflexivity.
  - eapply parse_fin.
    + repeat (estep1; rewrite ?c_id_nt, ?NT). reflexivity.
    + reflexivity.
Qed.

Lemma ret_line : forall m, is_ident (g_name m) = true ->
  line_stmts ("  return " ++ g_name m ++ "_CANID;") [s_ret m].
Proof.
  intros m IM. pose proof (c_id_ident m IM) as II.
  change "_CANID;"%string with ("_CANID" ++ ";")%string. rewrite ?app_assoc, c_id_fold.
  eapply return_line with (l := [TId (c_id m)]).
  - unfold lex. rewrite <- (app_nil_r (_ ++ _)) at 1. rewrite ?app_assoc.
    lexrun ltac:(rewrite lex_ident' by auto). lexend. reflexivity.
  - reflexivity.
  - eapply parse_fin.
    + repeat (estep1; rewrite ?c_id_nt). reflexivity.
    + reflexivity.
Qed.

(** ** Well-formedness of the text *)

Lemma sig_items_wf : forall dlc g sg last, gen_ok g -> sig_ok dlc sg ->
  iwf (sig_items g sg last).
Proof.
  intros dlc g sg last GO OK. unfold sig_items. cbn [iwf].
  split; [unfold sig_line; destruct (s_signed sg); reflexivity|].
  destruct (s_simple sg).
  - destruct last; cbn [iwf]; auto.
  - cbn [iwf]. split; [apply GO|]. split; [|split; [auto|split; [auto|split]]].
    + split; auto. unfold phys_line. destruct (s_double sg); reflexivity.
    + right. eexists. reflexivity.
    + split; auto.
Qed.
Lemma sig_items_stm : forall dlc g sg last, gen_ok g -> sig_ok dlc sg -> dlc <= 64 ->
  istm (sig_items g sg last).
Proof.
  intros dlc g sg last GO OK D. unfold sig_items. cbn [istm].
  split; [eapply sig_line_stmts; eauto|].
  destruct (s_simple sg) eqn:S.
  - destruct last; cbn [istm]; auto using line_empty.
  - cbn [istm]. split; [|split; [auto|]].
    + split; auto. eapply phys_line_stmts; eauto.
    + split; auto using line_empty.
Qed.

Lemma type_len : forall t, (String.length (print_type t) <= 8)%nat.
Proof. destruct t; cbn; lia. Qed.

Lemma raw_intro : forall s, no_nl s = true -> (Z.of_nat (String.length s) < 10000)%Z -> raw_ok s.
Proof.
  intros s A B. split; auto. apply Nat2Z.inj_lt.
  replace (Z.of_nat 10000) with 10000 by (vm_compute; reflexivity). exact B.
Qed.

Lemma raw_empty : raw_ok ""%string.
Proof. apply raw_intro; [reflexivity|cbn; lia]. Qed.

Lemma raw_ifdef : forall n x, is_ident x = true -> (String.length x <= 5000)%nat ->
  raw_ok ((if n : bool then "#ifndef " else "#ifdef ") ++ x).
Proof.
  intros n x I L. apply raw_intro.
  - destruct n; nonl; now rewrite (no_nl_ident' _ I).
  - rewrite app_len. destruct n; cbn [String.length]; lia.
Qed.
Lemma raw_endif : forall x, is_ident x = true -> (String.length x <= 5000)%nat ->
  raw_ok ("#endif" ++ (" // " ++ x)).
Proof.
  intros x I L. apply raw_intro.
  - nonl. now rewrite (no_nl_ident' _ I).
  - rewrite !app_len. cbn [String.length]. lia.
Qed.

Lemma sig_items_raw : forall dlc g sg last, gen_ok g -> sig_ok dlc sg -> dlc <= 64 ->
  Forall raw_ok (flat (sig_items g sg last)).
Proof.
  intros dlc g sg last GO OK D.
  pose proof (uj_len dlc sg OK D) as UL. pose proof (ok_name_len _ _ OK) as NL.
  pose proof (no_nl_ident' _ (ok_name _ _ OK)) as NN.
  pose proof (type_len (s_typero sg)) as T1. pose proof (type_len (s_typephys sg)) as T2.
  pose proof (go_len g GO) as (G1 & G2 & G3 & G4 & G5 & G6).
  pose proof (no_nl_ident' _ (go_DRV g GO)) as ND.
  pose proof (ok_len _ _ OK) as LEN.
  unfold sig_items. cbn [flat]. constructor.
  - apply raw_intro.
    + unfold sig_line, uj. rewrite decZ_num by lia.
      destruct (s_signed sg); nonl; rewrite NN, no_nl_ujoin; reflexivity.
    + unfold sig_line, ext_sig_name. rewrite decZ_num by lia.
      pose proof (num_len (s_len sg) ltac:(lia)).
      destruct (s_signed sg); rewrite !app_len; cbn [String.length]; lia.
  - destruct (s_simple sg) eqn:S.
    + destruct last; cbn [flat]; repeat constructor; auto using raw_empty.
    + destruct (ok_phys _ _ OK S) as (IF & LF). pose proof (no_nl_ident' _ IF) as NF.
      cbn [flat List.app]. constructor; [|constructor; [|constructor; [|constructor; [|constructor]]]].
      * apply (raw_ifdef false); [apply GO|lia].
      * apply raw_intro; unfold phys_line; destruct (s_double sg).
        -- nonl. rewrite NN, NF, ND. reflexivity.
        -- nonl. rewrite NN, NF, ND. reflexivity.
        -- rewrite !app_len. cbn [String.length]. lia.
        -- rewrite !app_len. cbn [String.length]. lia.
      * apply raw_endif; [apply GO|lia].
      * apply raw_empty.
Qed.

Lemma sigs_items_wf : forall dlc g sgs, gen_ok g -> dlc <= 64 ->
  (forall sg, In sg sgs -> sig_ok dlc sg) ->
  iwf (sigs_items g sgs) /\ istm (sigs_items g sgs) /\ Forall raw_ok (flat (sigs_items g sgs)).
Proof.
  intros dlc g sgs GO D. induction sgs as [|sg r IH]; intros OK.
  - cbn [sigs_items iwf istm flat]. auto.
  - destruct IH as (A & B & C); [intros; apply OK; now right|].
    pose proof (OK sg (or_introl eq_refl)) as O. cbn [sigs_items].
    split; [|split].
    + apply iwf_iapp; auto. eapply sig_items_wf; eauto.
    + apply istm_iapp; auto. eapply sig_items_stm; eauto.
    + rewrite flat_iapp. apply Forall_app. split; auto. eapply sig_items_raw; eauto.
Qed.

Lemma roll_sig_in : forall m sg, roll_sig m = Some sg -> In sg (g_sigs m).
Proof. intros m sg H. unfold roll_sig in H. destruct (g_roll m); [|discriminate]. eapply nth_error_In; eauto. Qed.
Lemma csm_sig_in : forall m sg, csm_sig m = Some sg -> In sg (g_sigs m).
Proof. intros m sg H. unfold csm_sig in H. destruct (g_csm m); [|discriminate]. eapply nth_error_In; eauto. Qed.

Lemma dec_len_aux : forall fuel n acc, (n < 10 ^ N.of_nat fuel)%N ->
  (String.length (digits_aux true 10 fuel n acc) <= fuel + String.length acc)%nat.
Proof.
  induction fuel; intros n acc H; [cbn; lia|].
  cbn [digits_aux]. destruct (n <? 10)%N eqn:E; [cbn [String.length]; lia|].
  specialize (IHfuel (n / 10)%N (String (xdigit_chr true (n mod 10)) acc)).
  cbn [String.length] in IHfuel.
  assert (n / 10 < 10 ^ N.of_nat fuel)%N.
  { apply N.div_lt_upper_bound; [lia|]. rewrite Nat2N.inj_succ, N.pow_succ_r' in H. exact H. }
  specialize (IHfuel H0). lia.
Qed.
Lemma dec_len_le : forall n, (String.length (dec n) <= S (N.to_nat (N.log2 n)))%nat.
Proof.
  intros n. unfold dec, print_base.
  pose proof (dec_len_aux (S (N.to_nat (N.log2 n))) n "" (log2_bound 10 n ltac:(lia))).
  cbn [String.length] in H. lia.
Qed.
Lemma dec_len32 : forall n, (n < 2 ^ 32)%N -> (String.length (dec n) <= 32)%nat.
Proof.
  intros n H. pose proof (dec_len_le n).
  destruct (N.eq_dec n 0) as [->|]; [cbn in *; lia|].
  assert (N.log2 n < 32)%N by (apply N.log2_lt_pow2; lia). lia.
Qed.
Lemma pX2_len : forall len, 1 <= len < 31 -> (String.length (pX2 (2 ^ len - 1)) <= 8)%nat.
Proof.
  intros len L.
  assert (H : forallb (fun n => (String.length (pX2 (2 ^ Z.of_nat n - 1)) <=? 8)%nat) (seq 1 30) = true)
    by (vm_compute; reflexivity).
  rewrite forallb_forall in H. specialize (H (Z.to_nat len)). rewrite Z2Nat.id in H by lia.
  assert (I : In (Z.to_nat len) (seq 1 30)) by (apply in_seq; lia). specialize (H I). lia.
Qed.
Lemma pX2_nonl : forall len, 1 <= len < 31 -> no_nl (pX2 (2 ^ len - 1)) = true.
Proof.
  intros len L. destruct (mask_word len L) as [_ H]. apply no_nl_ident in H.
  rewrite !no_nl_app in H. apply andb_true_iff in H. destruct H as [_ H].
  apply andb_true_iff in H. tauto.
Qed.

Lemma roll_items_wf : forall g m, gen_ok g -> msg_ok m ->
  iwf (roll_items g m) /\ istm (roll_items g m) /\ Forall raw_ok (flat (roll_items g m)).
Proof.
  intros g m GO MO. unfold roll_items. destruct (roll_sig m) as [sg|] eqn:R.
  2: { cbn [iwf istm flat]. auto. }
  pose proof (mo_sigs m MO sg (roll_sig_in m sg R)) as OK.
  destruct (mo_roll m MO sg R) as (LR & _). pose proof (ok_len _ _ OK) as LEN.
  pose proof (ok_name _ _ OK) as ID. pose proof (no_nl_ident' _ ID) as NN.
  pose proof (ok_name_len _ _ OK) as NL.
  pose proof (go_len g GO) as (G1 & G2 & G3 & G4 & G5 & G6).
  pose proof (pX2_len (s_len sg) ltac:(lia)) as XL. pose proof (pX2_nonl (s_len sg) ltac:(lia)) as XN.
  unfold roll_mask_of. split; [|split].
  - cbn [iwf]. split; [apply GO|]. split; [|split; [auto|split; [auto|split]]].
    + repeat split; reflexivity.
    + right. eexists. reflexivity.
    + split; auto.
  - cbn [istm]. split; [|split; auto using line_empty].
    split; [apply rollerr_line; auto|]. split; auto.
    unfold s_expt. 
    change (EBin OAnd (EBin OAdd (fexp (s_name sg)) (EInt I32 1)) (EInt U32 (roll_mask_of sg)))
      with (next_rhs (s_name sg) (s_len sg)).
    pose proof (next_line (s_name sg ++ "_expt") (s_name sg) (s_len sg) (expt_ident _ ID) ID ltac:(lia)) as H.
    rewrite app_assoc in H. exact H.
  - cbn [flat List.app]. constructor; [|constructor; [|constructor; [|constructor; [|constructor; [|constructor]]]]].
    + apply (raw_ifdef false); [apply GO|lia].
    + apply raw_intro; [nonl; now rewrite NN|rewrite !app_len; cbn [String.length]; lia].
    + apply raw_intro; [nonl; now rewrite NN, XN|rewrite !app_len; cbn [String.length]; lia].
    + apply raw_endif; [apply GO|lia].
    + apply raw_empty.
Qed.

Lemma csm_items_wf : forall g m, gen_ok g -> msg_ok m ->
  iwf (csm_items g m) /\ istm (csm_items g m) /\ Forall raw_ok (flat (csm_items g m)).
Proof.
  intros g m GO MO. unfold csm_items. destruct (csm_sig m) as [sg|] eqn:R.
  2: { cbn [iwf istm flat]. auto. }
  pose proof (mo_sigs m MO sg (csm_sig_in m sg R)) as OK.
  destruct (mo_csm m MO sg R) as (IC & NC & LC & OP).
  pose proof (ok_name _ _ OK) as ID. pose proof (no_nl_ident' _ ID) as NN.
  pose proof (ok_name_len _ _ OK) as NL.
  pose proof (go_len g GO) as (G1 & G2 & G3 & G4 & G5 & G6).
  pose proof (no_nl_ident' _ (mo_name m MO)) as NM. pose proof (mo_name_len m MO) as ML.
  split; [|split].
  - cbn [iwf]. split; [apply GO|]. split; [|split; [auto|split; [auto|split]]].
    + repeat split; reflexivity.
    + right. eexists. reflexivity.
    + split; auto.
  - cbn [istm]. split; [|split; auto using line_empty].
    split; auto. apply csmerr_line; auto. apply MO.
  - cbn [flat List.app]. constructor; [|constructor; [|constructor; [|constructor; [|constructor]]]].
    + apply (raw_ifdef false); [apply GO|lia].
    + rewrite swrap_small, decZ_num by lia. apply raw_intro.
      * nonl. now rewrite NN, NM, (no_nl_ident' _ IC).
      * rewrite !app_len. unfold num. pose proof (dec_len32 (Z.to_N (g_csmop m)) ltac:(lia)).
        cbn [String.length]. lia.
    + apply raw_endif; [apply GO|lia].
    + apply raw_empty.
Qed.

Lemma mon_items_wf : forall g m, gen_ok g -> msg_ok m ->
  iwf (mon_items g m) /\ istm (mon_items g m) /\ Forall raw_ok (flat (mon_items g m)).
Proof.
  intros g m GO MO.
  destruct (roll_items_wf g m GO MO) as (RA & RB & RC).
  destruct (csm_items_wf g m GO MO) as (CA & CB & CC).
  pose proof (go_len g GO) as (G1 & G2 & G3 & G4 & G5 & G6).
  pose proof (mo_name m MO) as IM.
  pose proof (no_nl_ident' _ IM) as NM. pose proof (mo_name_len m MO) as ML.
  pose proof (no_nl_ident _ (go_drv g GO)) as ND.
  split; [|split].
  - unfold mon_items. cbn [iwf]. split; [apply GO|].
    split; [|split; [auto|split; [auto|split]]].
    + do 4 (split; [reflexivity|]). apply iwf_iapp; auto. apply iwf_iapp; auto. cbn [iwf]. auto.
    + right. eexists. reflexivity.
    + split; [reflexivity|]. split; auto.
  - unfold mon_items. cbn [istm]. split; [|split; [auto|]].
    + split; [apply dlcerr_line; auto|]. split; [apply cycle_line|]. split; [apply cnt_line|].
      split; [apply line_empty|]. apply istm_iapp; auto. apply istm_iapp; auto. cbn [istm].
      split; auto. apply fmon_line; auto. apply GO.
    + split; [apply line_empty|]. split; auto. apply ret_line; auto.
  - unfold mon_items. cbn [flat]. rewrite !flat_iapp.
    repeat (apply Forall_cons || (apply Forall_app; split)); auto; try (apply Forall_nil).
    + apply (raw_ifdef false); [apply GO|lia].
    + apply raw_intro; [nonl; now rewrite NM|rewrite !app_len; cbn [String.length]; lia].
    + apply raw_intro; [reflexivity|cbn; lia].
    + apply raw_intro; [reflexivity|cbn; lia].
    + apply raw_empty.
    + apply raw_intro.
      * nonl. now rewrite NM, ND.
      * rewrite !app_len. cbn [String.length]. lia.
    + apply raw_endif; [apply GO|lia].
    + apply raw_empty.
    + apply raw_intro; [nonl; now rewrite NM|rewrite !app_len; cbn [String.length]; lia].
Qed.

Lemma unpack_items_wf : forall g m, gen_ok g -> msg_ok m ->
  iwf (unpack_items g m) /\ istm (unpack_items g m) /\ Forall raw_ok (flat (unpack_items g m)).
Proof.
  intros g m GO MO. pose proof (mo_dlc m MO).
  destruct (sigs_items_wf (g_dlc m) g (g_sigs m) GO ltac:(lia) (mo_sigs m MO)) as (A & B & C).
  destruct (mon_items_wf g m GO MO) as (A' & B' & C').
  unfold unpack_items. split; [|split].
  - now apply iwf_iapp.
  - now apply istm_iapp.
  - rewrite flat_iapp. apply Forall_app. auto.
Qed.

(** ** Values of the monitor section *)

Lemma const_eval : forall n c m x v, const_macro (c_macros c) x v ->
  eval (S n) c m [] (EId x) = Ok (VI U32 v).
Proof.
  intros n c m x v (b & L & P). erewrite eval_macro; eauto. apply eval_int.
Qed.

Lemma exec_asg' : forall n c m l p r v t w,
  match l with EIdx _ _ => False | _ => True end ->
  not_call c r -> path l = Some p -> typ m p = Some t ->
  eval n c m [] r = Ok v -> to_obj t v = Ok w ->
  exec n c m (SExpr (EBin OAsg l r)) = Ok (set_scal m p (t, w), None).
Proof. intros. eapply exec_asg; eauto. Qed.

Definition flag_obj (b : bool) : lty * cval := (LBits U32 1, VI I32 (flag b)).

Lemma flag_to_obj : forall b, to_obj (LBits U32 1) (vbool b) = Ok (VI I32 (flag b)).
Proof. destruct b; reflexivity. Qed.

Lemma dlcerr_exec : forall n c g m dl, const_macro (c_macros c) (c_dlc g) (g_dlc g) ->
  0 <= g_dlc g < 2 ^ 32 -> lookup "dlc_"%string (c_macros c) = None ->
  m_scal m "dlc_" = Some (LInt U8, VI U8 dl) -> 0 <= dl < 256 ->
  typ m (mon_path "dlc_error") = Some (LBits U32 1) ->
  exec (S n) c m (s_dlcerr g)
  = Ok (set_scal m (mon_path "dlc_error") (flag_obj (dl <? g_dlc g)), None).
Proof.
  intros n c g m dl CM GD NM DL DR TY. unfold s_dlcerr.
  eapply exec_asg'; [exact I|exact I|reflexivity|exact TY| |apply flag_to_obj].
  rewrite eval_bin by reflexivity.
  rewrite (eval_var (S n) c m [] "dlc_" (LInt U8) (VI U8 dl)); auto.
  rewrite (const_eval n c m _ _ CM). cbn [bind bin_val int_op].
  change (usual U8 U32) with U32.
  rewrite !conv_small; auto; cbn [width]; lia.
Qed.

Lemma cycle_exec : forall n c m tick, tick_ok n c tick ->
  typ m (mon_path "last_cycle") = Some (LInt U32) ->
  exec n c m s_cycle = Ok (set_scal m (mon_path "last_cycle") (LInt U32, VI U32 tick), None).
Proof.
  intros n c m tick (NC & TR & TK) TY. destruct (TK m) as [t E].
  unfold s_cycle. eapply exec_asg'; [exact I| |reflexivity|exact TY|exact E|].
  - exact NC.
  - cbn [to_obj to_int bind]. rewrite conv_small; auto.
Qed.

Lemma cnt_exec : forall n c m k, m_scal m (mon_path "frame_cnt") = Some (LInt U32, VI U32 k) ->
  0 <= k < 2 ^ 32 ->
  exec n c m s_cnt
  = Ok (set_scal m (mon_path "frame_cnt") (LInt U32, VI U32 ((k + 1) mod 2 ^ 32)), None).
Proof.
  intros n c m k S K. unfold s_cnt, mexp. cbn [exec exec_expr].
  rewrite (eval_fld n c m [] false (fexp "mon1") "frame_cnt" (mon_path "frame_cnt") _ _ eq_refl S).
  cbn [bind bin_val int_op]. change (usual U32 I32) with U32.
  rewrite !conv_small by (auto; cbn [width]; lia). unfold arith. cbn [is_signed bind].
  unfold assign. cbn [path fexp].
  change ("_m" ++ "->" ++ "mon1")%string with "_m->mon1"%string.
  change ("_m->mon1" ++ "." ++ "frame_cnt")%string with (mon_path "frame_cnt").
  rewrite S. cbn [to_obj to_int bind]. unfold conv. cbn [is_signed width]. unfold uwrap.
  now rewrite Z.mod_mod by lia.
Qed.

Lemma fits_promote : forall t z, fits t z = true -> fits (usual t t) z = true.
Proof. intros t z F. unfold fits, ty_min, ty_max in *. destruct t; cbn in *; lia. Qed.

Lemma ne_same : forall t a b, fits t a = true -> fits t b = true ->
  bin_val ONe (VI t a) (VI t b) = Ok (vbool (negb (a =? b))).
Proof.
  intros t a b A B. cbn [bin_val int_op].
  now rewrite !conv_id by (apply fits_promote; auto).
Qed.

(** integer type and range of what an object of a signal contains *)
Definition elt (bits : bool) (sg : signal) : cty :=
  if bits && (s_len sg <? 8) then I32 else s_typero sg.
Lemma stored_elt : forall bits sg z, stored (field_ty bits sg) z = VI (elt bits sg) z.
Proof.
  intros bits sg z. unfold field_ty, elt. destruct (bits && (s_len sg <? 8)) eqn:B; [|reflexivity].
  apply andb_true_iff in B. cbn [stored]. destruct B as [_ B]. apply Z.ltb_lt in B.
  replace (s_len sg <? 32) with true by lia. now rewrite orb_true_r.
Qed.

Lemma wrap_conv_range : forall t w z, 1 <= w -> w <= width t ->
  (if is_signed t then swrap w (conv t z) else uwrap w (conv t z))
    = (if is_signed t then swrap w z else uwrap w z).
Proof.
  intros t w z W1 W2.
  assert (D : (2 ^ w | 2 ^ width t)).
  { exists (2 ^ (width t - w)). rewrite <- Z.pow_add_r by lia. f_equal. lia. }
  assert (M : conv t z mod 2 ^ w = z mod 2 ^ w).
  { unfold conv. pose proof (Z.pow_pos_nonneg 2 w ltac:(lia) ltac:(lia)).
    destruct D as [k D].
    assert (X : exists j, conv t z = z + j * 2 ^ w).
    { unfold conv. pose proof (width_pos t).
      assert (Y : exists j, z mod 2 ^ width t = z + j * 2 ^ w).
      { exists (- (z / 2 ^ width t) * k).
        rewrite Z.mod_eq by (apply Z.pow_nonzero; lia). rewrite D at 1. lia. }
      destruct Y as [j Y]. destruct (is_signed t); unfold swrap, uwrap.
      - rewrite Y. destruct (z + j * 2 ^ w <? 2 ^ (width t - 1)); [exists j; lia|].
        exists (j - k). rewrite D. lia.
      - exists j. exact Y. }
    destruct X as [j X]. fold (conv t z). rewrite X. apply Z.mod_add. lia. }
  destruct (is_signed t); unfold swrap, uwrap; now rewrite M.
Qed.

Lemma fits_conv : forall t z, fits t (conv t z) = true.
Proof.
  intros t z. unfold fits, ty_min, ty_max, conv, swrap, uwrap. pose proof (width_pos t).
  assert (2 ^ width t = 2 * 2 ^ (width t - 1)) by (rewrite <- Z.pow_succ_r by lia; f_equal; lia).
  pose proof (pow2_pos (width t - 1) ltac:(lia)).
  pose proof (Z.mod_pos_bound z (2 ^ width t) ltac:(lia)).
  destruct (is_signed t); [|lia].
  destruct (Z.ltb_spec (z mod 2 ^ width t) (2 ^ (width t - 1))); lia.
Qed.

Lemma obj_field : forall bits sg v, raw_type_ok sg -> 1 <= s_len sg ->
  to_obj (field_ty bits sg) v = Ok v ->
  exists z, v = stored (field_ty bits sg) z /\ fits (elt bits sg) z = true.
Proof.
  intros bits sg v RT LEN H.
  assert (SE : forall z, stored (field_ty bits sg) z = VI (elt bits sg) z) by apply stored_elt.
  unfold field_ty, elt in *. destruct (bits && (s_len sg <? 8)) eqn:B.
  - cbn [to_obj] in H. destruct (to_int (s_typero sg) v) as [z| |] eqn:T; try discriminate.
    cbn [bind] in H. injection H as H. apply andb_true_iff in B. destruct B as [_ B].
    replace (s_len sg <? 32) with true in H by lia. rewrite orb_true_r in H.
    eexists. split; [rewrite SE; symmetry; exact H|].
    assert (P : 2 ^ s_len sg <= 2 ^ 8) by (apply Z.pow_le_mono_r; lia).
    assert (P' : 2 ^ (s_len sg - 1) <= 2 ^ 8) by (apply Z.pow_le_mono_r; lia).
    assert (P0 : 0 < 2 ^ s_len sg) by (apply pow2_pos; lia).
    pose proof (Z.mod_pos_bound z (2 ^ s_len sg) P0) as MB.
    change (2 ^ 8) with 256 in *.
    unfold fits, ty_min, ty_max. cbn [is_signed width]. change (2 ^ (32 - 1)) with 2147483648.
    destruct (is_signed (s_typero sg)); unfold swrap, uwrap;
      [destruct (z mod 2 ^ s_len sg <? 2 ^ (s_len sg - 1))|]; lia.
  - cbn [to_obj] in H. destruct (to_int (s_typero sg) v) as [z| |] eqn:T; try discriminate.
    cbn [bind] in H. injection H as <-. exists z. split; [reflexivity|].
    cbn [to_int] in T. injection T as T. rewrite <- T. apply fits_conv.
Qed.

Lemma stored_carries_fits : forall bits sg z, raw_type_ok sg -> 1 <= s_len sg ->
  carries (s_signed sg) (s_len sg) z -> fits (elt bits sg) z = true.
Proof.
  intros bits sg z RT L C. unfold elt. destruct (bits && (s_len sg <? 8)) eqn:B.
  - apply andb_true_iff in B. destruct B as [_ B].
    assert (P : 2 ^ s_len sg <= 2 ^ 8) by (apply Z.pow_le_mono_r; lia).
    assert (P' : 2 ^ (s_len sg - 1) <= 2 ^ 8) by (apply Z.pow_le_mono_r; lia).
    change (2 ^ 8) with 256 in *. unfold carries in C.
    unfold fits, ty_min, ty_max. cbn [is_signed width]. change (2 ^ (32 - 1)) with 2147483648.
    destruct (s_signed sg); lia.
  - now apply carries_fits.
Qed.

Lemma conv_mod : forall t z len, 0 <= len <= width t -> conv t z mod 2 ^ len = z mod 2 ^ len.
Proof.
  intros t z len L.
  assert (P : 0 < 2 ^ len) by (apply pow2_pos; lia).
  assert (D : 2 ^ width t = 2 ^ (width t - len) * 2 ^ len)
    by (rewrite <- Z.pow_add_r by lia; f_equal; lia).
  assert (X : exists j, conv t z = z + j * 2 ^ len).
  { unfold conv.
    assert (Y : exists j, z mod 2 ^ width t = z + j * 2 ^ len).
    { exists (- (z / 2 ^ width t) * 2 ^ (width t - len)).
      rewrite Z.mod_eq by (apply Z.pow_nonzero; [lia|destruct t; cbn; lia]). rewrite D at 1. lia. }
    destruct Y as [j Y]. destruct (is_signed t); unfold swrap, uwrap.
    - rewrite Y. destruct (z + j * 2 ^ len <? 2 ^ (width t - 1)); [exists j; lia|].
      exists (j - 2 ^ (width t - len)). rewrite D. lia.
    - exists j. exact Y. }
  destruct X as [j X]. rewrite X. apply Z.mod_add. lia.
Qed.

Lemma land_mask : forall z len, 0 <= len -> Z.land z (2 ^ len - 1) = z mod 2 ^ len.
Proof.
  intros z len L. replace (2 ^ len - 1) with (Z.ones len) by (rewrite Z.ones_equiv; lia).
  now apply Z.land_ones.
Qed.

Lemma next_val : forall t r len, fits t r = true -> (is_signed t = true -> r < 2 ^ 31 - 1) ->
  1 <= len < 31 ->
  exists u, (do a <- bin_val OAdd (VI t r) (VI I32 1); bin_val OAnd a (VI U32 (2 ^ len - 1)))
            = Ok (VI u ((r + 1) mod 2 ^ len)).
Proof.
  intros t r len F S L. cbn [bin_val int_op].
  assert (P : 2 ^ len <= 2 ^ 30) by (apply Z.pow_le_mono_r; lia).
  assert (P0 : 0 < 2 ^ len) by (apply pow2_pos; lia).
  change (2 ^ 30) with 1073741824 in P.
  assert (FM : forall u, 32 <= width u -> fits u (2 ^ len - 1) = true).
  { intros u U. unfold fits, ty_min, ty_max. destruct u; cbn in *; lia. }
  assert (AND : forall u a, 32 <= width u -> a mod 2 ^ len = (r + 1) mod 2 ^ len ->
     exists u', int_op OAnd u a U32 (2 ^ len - 1) = Ok (VI u' ((r + 1) mod 2 ^ len))).
  { intros u a U E. exists (usual u U32).
    assert (U' : 32 <= width (usual u U32)) by (destruct u; cbn; lia).
    cbn [int_op]. rewrite (conv_id _ (2 ^ len - 1)) by auto.
    rewrite land_mask, conv_mod by lia. now rewrite E. }
  assert (ADD : exists u a, 32 <= width u /\ arith (usual t I32) (conv (usual t I32) r
                 + conv (usual t I32) 1) = Ok (VI u a) /\ a mod 2 ^ len = (r + 1) mod 2 ^ len).
  { rewrite (conv_id _ 1) by (destruct t; reflexivity).
    destruct (is_signed t) eqn:SG.
    - rewrite (conv_id _ r) by (unfold fits, ty_min, ty_max in *; destruct t; cbn in *; lia).
      exists (usual t I32), (r + 1). split; [destruct t; cbn; lia|]. split; auto.
      unfold arith. replace (is_signed (usual t I32)) with true by (destruct t; auto; discriminate).
      replace (fits (usual t I32) (r + 1)) with true; auto.
      specialize (S eq_refl). unfold fits, ty_min, ty_max in *. destruct t; cbn in *; try discriminate; lia.
    - exists (usual t I32). unfold arith. destruct (is_signed (usual t I32)) eqn:SU.
      + rewrite (conv_id _ r) by (unfold fits, ty_min, ty_max in *; destruct t; cbn in *; lia).
        exists (r + 1). split; [destruct t; cbn; lia|]. split; auto.
        replace (fits (usual t I32) (r + 1)) with true; auto.
        unfold fits, ty_min, ty_max in *. destruct t; cbn in *; try discriminate; lia.
      + eexists. split; [destruct t; cbn; lia|]. split; [reflexivity|].
        rewrite conv_mod by (destruct t; cbn; lia).
        rewrite (conv_id _ r) by (unfold fits, ty_min, ty_max in *; destruct t; cbn in *; try discriminate; lia).
        reflexivity. }
  destruct ADD as (u & a & U & E & MO). rewrite E. cbn [bind]. apply AND; auto.
Qed.

Lemma eval_fexp : forall n c m loc x t v, m_scal m (fpath x) = Some (t, v) ->
  eval n c m loc (fexp x) = Ok v.
Proof. intros. unfold fexp. eapply eval_fld; eauto. reflexivity. Qed.

Lemma next_eval : forall n c m nm t t0 r len, m_scal m (fpath nm) = Some (t0, VI t r) ->
  fits t r = true -> (is_signed t = true -> r < 2 ^ 31 - 1) -> 1 <= len < 31 ->
  exists u, eval n c m [] (next_rhs nm len) = Ok (VI u ((r + 1) mod 2 ^ len)).
Proof.
  intros n c m nm t t0 r len E F S L. unfold next_rhs.
  destruct (next_val t r len F S L) as [u H]. exists u.
  rewrite !eval_bin by reflexivity.
  rewrite (eval_fexp n c m [] _ _ _ E), !eval_int.
  cbn [bind]. exact H.
Qed.

Lemma to_obj_int : forall l t z, l <> LVoid -> l <> LDbl -> to_obj l (VI t z) = Ok (obj l z).
Proof. intros l t z V D. destruct l; try congruence; reflexivity. Qed.
Lemma field_ty_int : forall bits sg, field_ty bits sg <> LVoid /\ field_ty bits sg <> LDbl.
Proof. intros. unfold field_ty. destruct (_ && _); split; discriminate. Qed.

Definition expt_path (sg : signal) : string := fpath (s_name sg ++ "_expt").

(** the memory after the rolling counter check *)
Definition roll_mem (bits : bool) (sg : signal) (r e : Z) (m : mem) : mem :=
  set_scal (set_scal m (mon_path "roll_error") (flag_obj (negb (r =? e))))
    (expt_path sg) (field_ty bits sg, obj (field_ty bits sg) ((r + 1) mod 2 ^ s_len sg)).

Lemma ident_no_dot : forall x f, is_ident x = true -> fpath x <> mon_path f.
Proof.
  intros x f I E. unfold fpath, mon_path in E. cbn in E.
  injection E as E. apply ident_chars in I. rewrite E in I. cbn in I. discriminate.
Qed.

Lemma roll_exec : forall n c bits sg m r e, raw_type_ok sg -> 1 <= s_len sg < 31 ->
  is_ident (s_name sg) = true ->
  carries (s_signed sg) (s_len sg) r -> fits (elt bits sg) e = true ->
  m_scal m (fpath (s_name sg)) = Some (field_ty bits sg, stored (field_ty bits sg) r) ->
  m_scal m (expt_path sg) = Some (field_ty bits sg, stored (field_ty bits sg) e) ->
  typ m (mon_path "roll_error") = Some (LBits U32 1) ->
  exec_list n c m [s_rollerr sg; s_expt sg] = Ok (roll_mem bits sg r e m, None).
Proof.
  intros n c bits sg m r e RT LEN ID CR FE SR SE TE.
  rewrite stored_elt in SR, SE.
  assert (FR : fits (elt bits sg) r = true) by (apply stored_carries_fits; auto; lia).
  assert (N1 : mon_path "roll_error" <> fpath (s_name sg))
    by (intros E; symmetry in E; eapply ident_no_dot; eauto).
  assert (N2 : mon_path "roll_error" <> expt_path sg)
    by (intros E; symmetry in E; eapply ident_no_dot; [|exact E]; apply expt_ident; auto).
  rewrite exec_list_cons.
  assert (E1 : exec n c m (s_rollerr sg)
     = Ok (set_scal m (mon_path "roll_error") (flag_obj (negb (r =? e))), None)).
  { unfold s_rollerr. eapply exec_asg'; [exact I|exact I|reflexivity|exact TE| |apply flag_to_obj].
    rewrite eval_bin by reflexivity.
    rewrite (eval_fexp n c m [] _ _ _ SR).
    rewrite (eval_fexp n c m [] _ _ _ SE).
    cbn [bind]. apply ne_same; auto. }
  rewrite E1. cbn [bind]. rewrite exec_list_cons.
  set (m1 := set_scal m (mon_path "roll_error") (flag_obj (negb (r =? e)))).
  assert (SR1 : m_scal m1 (fpath (s_name sg)) = Some (field_ty bits sg, VI (elt bits sg) r))
    by (subst m1; rewrite m_scal_set_other; auto).
  destruct (next_eval n c m1 (s_name sg) _ _ r (s_len sg) SR1 FR) as [u EV]; auto.
  { intros _. unfold carries in CR.
    assert (2 ^ s_len sg <= 2 ^ 30) by (apply Z.pow_le_mono_r; lia).
    assert (2 ^ (s_len sg - 1) <= 2 ^ 30) by (apply Z.pow_le_mono_r; lia).
    change (2 ^ 30) with 1073741824 in *. change (2 ^ 31) with 2147483648.
    destruct (s_signed sg); lia. }
  assert (E2 : exec n c m1 (s_expt sg) = Ok (roll_mem bits sg r e m, None)).
  { unfold s_expt. unfold roll_mem. fold m1.
    destruct (field_ty_int bits sg).
    eapply exec_asg'; [exact I|exact I|reflexivity| |exact EV|apply to_obj_int; auto].
    assert (typ m1 (expt_path sg) = Some (field_ty bits sg)).
    { unfold typ. subst m1. rewrite m_scal_set_other by auto. now rewrite SE. }
    exact H1. }
  rewrite E2. reflexivity.
Qed.

Definition csm_mem (cs h : Z) (m : mem) : mem :=
  set_scal m (mon_path "csm_error") (flag_obj (negb (h mod 256 =? cs))).

Lemma csm_exec : forall n c bits g sg m d cs hash, c_types c = std_types ->
  hash_ok n c g (EId "_d") "_d" hash -> only_array m "_d" d -> m_scal m (g_csmmethod g) = None ->
  fits (elt bits sg) cs = true ->
  m_scal m (fpath (s_name sg)) = Some (field_ty bits sg, stored (field_ty bits sg) cs) ->
  typ m (mon_path "csm_error") = Some (LBits U32 1) ->
  exec n c m (s_csmerr g sg) = Ok (csm_mem cs (hash d) m, None).
Proof.
  intros n c bits g sg m d cs hash TY (NC & HA) AR NM FC SC TE.
  destruct (HA m d AR NM) as [t E]. rewrite stored_elt in SC.
  unfold s_csmerr. eapply exec_asg'; [exact I|exact I|reflexivity|exact TE| |apply flag_to_obj].
  rewrite eval_bin by reflexivity. rewrite eval_cast. unfold hash_call, c_dlc, c_id.
  rewrite E. cbn [bind]. rewrite TY. change (std_types "uint8_t") with (Some (LInt U8)).
  cbn [to_obj to_int bind].
  rewrite (eval_fexp n c m [] _ _ _ SC).
  cbn [bind bin_val int_op]. unfold conv at 2. cbn [is_signed width]. unfold uwrap.
  change (2 ^ 8) with 256. pose proof (Z.mod_pos_bound (hash d) 256 ltac:(lia)).
  set (v := hash d mod 256) in *.
  rewrite (conv_id _ v), (conv_id _ cs); auto.
  - unfold fits, ty_min, ty_max in *. destruct (elt bits sg); cbn in *; lia.
  - unfold fits, ty_min, ty_max. destruct (elt bits sg); cbn; lia.
Qed.

(** ** The complete body *)

Definition roll_on (M : mtable) (g : gendesc) (m : message) : option signal :=
  if defined (n_useroll g) M then roll_sig m else None.
Definition csm_on (M : mtable) (g : gendesc) (m : message) : option signal :=
  if defined (n_usecsm g) M then csm_sig m else None.

Definition roll_stmts (o : option signal) : list stmt :=
  match o with Some sg => [s_rollerr sg; s_expt sg] | None => [] end.
Definition csm_stmts (m : message) (o : option signal) : list stmt :=
  match o with Some sg => [s_csmerr m sg] | None => [] end.

Lemma roll_nodef : forall g m, nodef (roll_items g m).
Proof. intros. unfold roll_items. destruct (roll_sig m); cbn [nodef]; auto. Qed.
Lemma csm_nodef : forall g m, nodef (csm_items g m).
Proof. intros. unfold csm_items. destruct (csm_sig m); cbn [nodef]; auto. Qed.
Lemma sigs_nodef : forall g sgs, nodef (sigs_items g sgs).
Proof.
  assert (A : forall a b, nodef a -> nodef b -> nodef (iapp a b))
    by (induction a; intros b0 X Y; cbn [iapp nodef] in *; intuition auto).
  induction sgs as [|sg r IH]; cbn [sigs_items nodef]; auto.
  apply A; auto. unfold sig_items. cbn [nodef]. destruct (s_simple sg); [destruct r|]; cbn [nodef]; auto.
Qed.

Lemma roll_stms : forall M g m, stms M (roll_items g m) = roll_stmts (roll_on M g m).
Proof.
  intros. unfold roll_items, roll_on. destruct (roll_sig m); cbn [stms]; cbv zeta.
  - rewrite ?xorb_false_l. destruct (defined (n_useroll g) M); reflexivity.
  - destruct (defined (n_useroll g) M); reflexivity.
Qed.
Lemma csm_stms : forall M g m, stms M (csm_items g m) = csm_stmts m (csm_on M g m).
Proof.
  intros. unfold csm_items, csm_on. destruct (csm_sig m); cbn [stms]; cbv zeta.
  - rewrite ?xorb_false_l. destruct (defined (n_usecsm g) M); reflexivity.
  - destruct (defined (n_usecsm g) M); reflexivity.
Qed.
Lemma mon_stms : forall M g m,
  stms M (mon_items g m)
  = ((if defined (n_usemon g) M
      then [s_dlcerr m; s_cycle; s_cnt] ++ roll_stmts (roll_on M g m)
             ++ csm_stmts m (csm_on M g m) ++ [s_fmon g m]
      else []) ++ [s_ret m])%list.
Proof.
  intros. unfold mon_items. cbn [stms]. cbv zeta. rewrite ?xorb_false_l.
  destruct (defined (n_usemon g) M).
  - cbn [stms List.app]. rewrite !stms_iapp, roll_stms, (act_nodef (roll_items g m)) by apply roll_nodef.
    rewrite csm_stms, (act_nodef (csm_items g m)) by apply csm_nodef. reflexivity.
  - reflexivity.
Qed.

Definition is_mon_path (q : string) : Prop := exists f, q = mon_path f.
Definition expt_on (M : mtable) (g : gendesc) (m : message) (q : string) : Prop :=
  exists sg, roll_on M g m = Some sg /\ q = expt_path sg.

(** what the monitor section leaves behind *)
Record mon_post (M : mtable) (g : gendesc) (msg : message) (bits : bool) (d : list Z) (dl tick : Z)
    (hash : list Z -> Z) (m m1 : mem) : Prop := {
  mp_dlc : m_scal m1 (mon_path "dlc_error") = Some (flag_obj (dl <? g_dlc msg));
  mp_cycle : m_scal m1 (mon_path "last_cycle") = Some (LInt U32, VI U32 tick);
  mp_cnt : forall k, m_scal m (mon_path "frame_cnt") = Some (LInt U32, VI U32 k) ->
             m_scal m1 (mon_path "frame_cnt") = Some (LInt U32, VI U32 ((k + 1) mod 2 ^ 32));
  mp_roll : match roll_on M g msg with
            | None => m_scal m1 (mon_path "roll_error") = m_scal m (mon_path "roll_error")
            | Some sg => forall e,
                m_scal m (expt_path sg) = Some (field_ty bits sg, stored (field_ty bits sg) e) ->
                m_scal m1 (mon_path "roll_error") = Some (flag_obj (negb (unp sg d =? e))) /\
                m_scal m1 (expt_path sg)
                = Some (field_ty bits sg,
                        obj (field_ty bits sg) ((unp sg d + 1) mod 2 ^ s_len sg))
            end;
  mp_csm : match csm_on M g msg with
           | None => m_scal m1 (mon_path "csm_error") = m_scal m (mon_path "csm_error")
           | Some sg => m_scal m1 (mon_path "csm_error")
                        = Some (flag_obj (negb (hash d mod 256 =? unp sg d)))
           end;
  mp_only : only (fun q => is_mon_path q \/ expt_on M g msg q) m m1
}.

Lemma has_typ : forall m p t, has_type m p t -> typ m p = Some t.
Proof. intros m p t (v & E & _). unfold typ. now rewrite E. Qed.

Lemma mon_path_inj : forall a b, mon_path a = mon_path b -> a = b.
Proof. intros a b H. unfold mon_path in H. cbn in H. congruence. Qed.

Lemma exec_list_step : forall n c m s m' r, exec n c m s = Ok (m', None) ->
  exec_list n c m (s :: r) = exec_list n c m' r.
Proof. intros. rewrite exec_list_cons, H. reflexivity. Qed.
Lemma exec_list_steps : forall n c m a m' r, exec_list n c m a = Ok (m', None) ->
  exec_list n c m (a ++ r) = exec_list n c m' r.
Proof. intros. rewrite exec_list_app, H. reflexivity. Qed.

Lemma u32_obj : forall v, to_obj (LInt U32) v = Ok v -> exists k, v = VI U32 k /\ 0 <= k < 2 ^ 32.
Proof.
  intros v H. cbn [to_obj] in H. destruct (to_int U32 v) as [z| |] eqn:T; try discriminate.
  cbn [bind] in H. injection H as <-. exists z. split; auto.
  cbn [to_int] in T. injection T as T. rewrite <- T. apply (conv_u_range U32). reflexivity.
Qed.

Ltac setsimp := repeat first
  [ rewrite m_scal_set_same
  | rewrite m_scal_set_other
      by (intros ?E; first [ apply mon_path_inj in E; discriminate | contradiction | congruence ]) ].

Lemma mon_exec : forall n c g msg bits d dl tick hash h m r0,
  let M := c_macros c in
  c_types c = std_types -> names_free M -> id_consts M msg -> msg_ok msg ->
  defined (n_usemon g) M = true ->
  m_scal m "dlc_" = Some (LInt U8, VI U8 dl) -> 0 <= dl < 256 ->
  only_array m "_d" d ->
  has_monitor m -> tick_ok (S n) c tick ->
  (forall sg, roll_on M g msg = Some sg -> has_type m (expt_path sg) (field_ty bits sg)) ->
  (csm_on M g msg <> None -> m_scal m (g_csmmethod msg) = None /\
                             hash_ok (S n) c msg (EId "_d") "_d" hash) ->
  c_calls c (fmon_name g msg) = Some (fun _ m => Ok (h m, VI I32 0)) ->
  (forall sg, In sg (g_sigs msg) ->
     m_scal m (fpath (s_name sg)) = Some (field_ty bits sg, stored (field_ty bits sg) (unp sg d))) ->
  exists m1, exec_list (S n) c m ([s_dlcerr msg; s_cycle; s_cnt] ++ roll_stmts (roll_on M g msg)
             ++ csm_stmts msg (csm_on M g msg) ++ s_fmon g msg :: r0)
             = exec_list (S n) c (h m1) r0 /\
    mon_post M g msg bits d dl tick hash m m1.
Proof.
  intros n c g msg bits d dl tick hash h m r0 M TY NF IC MO UM DL DR AR HM TK HE HH FM SG.
  pose proof (has_typ _ _ _ (hm_dlc _ HM)) as T1. pose proof (has_typ _ _ _ (hm_cycle _ HM)) as T2.
  pose proof (has_typ _ _ _ (hm_cnt _ HM)) as T3. pose proof (has_typ _ _ _ (hm_roll _ HM)) as T4.
  pose proof (has_typ _ _ _ (hm_csm _ HM)) as T5.
  destruct (hm_cnt _ HM) as (cv & C1 & C2). destruct (u32_obj _ C2) as (k & -> & KR). clear C2.
  pose proof (mo_dlc _ MO) as GD.
  cbn [List.app].
  (* the three first statements *)
  set (ma := set_scal m (mon_path "dlc_error") (flag_obj (dl <? g_dlc msg))).
  erewrite exec_list_step.
  2: { apply dlcerr_exec with (dl := dl); auto; [apply IC|lia|apply NF; cbn; tauto]. }
  fold ma.
  assert (Oa : only (fun q => is_mon_path q \/ expt_on M g msg q) m ma).
  { eapply only_weaken; [|apply only_set; auto]. intros q <-. left. eexists. reflexivity. }
  set (mb := set_scal ma (mon_path "last_cycle") (LInt U32, VI U32 tick)).
  erewrite exec_list_step.
  2: { apply cycle_exec with (tick := tick); auto; eapply only_typ; eauto. }
  fold mb.
  assert (Ob : only (fun q => is_mon_path q \/ expt_on M g msg q) m mb).
  { eapply only_trans; [exact Oa|]. eapply only_weaken; [|apply only_set].
    - intros q <-. left. eexists. reflexivity.
    - eapply only_typ; eauto. }
  set (mc := set_scal mb (mon_path "frame_cnt") (LInt U32, VI U32 ((k + 1) mod 2 ^ 32))).
  erewrite exec_list_step.
  2: { apply cnt_exec with (k := k); auto. }
  fold mc.
  assert (Oc : only (fun q => is_mon_path q \/ expt_on M g msg q) m mc).
  { eapply only_trans; [exact Ob|]. eapply only_weaken; [|apply only_set].
    - intros q <-. left. eexists. reflexivity.
    - eapply only_typ; eauto. }
  assert (FP : forall x, is_ident x = true -> m_scal mc (fpath x) = m_scal m (fpath x)).
  { intros x I. subst mc mb ma. rewrite !m_scal_set_other; auto; apply ident_no_dot; auto. }
  (* the rolling counter *)
  assert (RO : exists mr, exec_list (S n) c mc (roll_stmts (roll_on M g msg)) = Ok (mr, None) /\
     only (fun q => q = mon_path "roll_error" \/ expt_on M g msg q) mc mr /\
     match roll_on M g msg with
     | None => mr = mc
     | Some sg => forall e,
         m_scal m (expt_path sg) = Some (field_ty bits sg, stored (field_ty bits sg) e) ->
         mr = roll_mem bits sg (unp sg d) e mc
     end).
  { destruct (roll_on M g msg) as [sg|] eqn:R; [|exists mc; repeat split; auto].
    assert (RS : roll_sig msg = Some sg)
      by (unfold roll_on in R; destruct (defined (n_useroll g) M); [exact R|discriminate]).
    pose proof (mo_sigs _ MO sg (roll_sig_in _ _ RS)) as OK.
    destruct (mo_roll _ MO sg RS) as [LR _]. pose proof (ok_len _ _ OK) as LEN.
    destruct (HE sg eq_refl) as (v & E1 & E2).
    destruct (obj_field bits sg v (ok_type _ _ OK) ltac:(lia) E2) as (e & -> & FE).
    exists (roll_mem bits sg (unp sg d) e mc). split; [|split].
    - unfold roll_stmts. eapply roll_exec; [apply OK|lia|apply OK|apply unp_carries; lia|exact FE| | |].
      + rewrite FP by apply OK. apply SG. eapply roll_sig_in; eauto.
      + unfold expt_path. rewrite FP; auto. apply expt_ident. apply OK.
      + eapply only_typ; eauto.
    - unfold roll_mem.
      eapply only_trans.
      + eapply only_weaken; [|apply only_set].
        * intros q <-. auto.
        * eapply only_typ; eauto.
      + eapply only_weaken; [|apply only_set].
        * intros q <-. right. exists sg. auto.
        * unfold typ. rewrite m_scal_set_other.
          -- unfold expt_path. rewrite FP by (apply expt_ident; apply OK). fold (expt_path sg). now rewrite E1.
          -- apply ident_no_dot. apply expt_ident. apply OK.
    - intros e' E'. rewrite E' in E1. injection E1 as E1. rewrite !stored_elt in E1. congruence. }
  destruct RO as (mr & ER & OR & VR).
  rewrite (exec_list_steps _ _ _ _ _ _ ER).
  assert (NMr : forall f, f <> "roll_error"%string -> m_scal mr (mon_path f) = m_scal mc (mon_path f)).
  { intros f NE. destruct OR as (_ & _ & C). apply C. intros [E|(sg & R & E)].
    - apply mon_path_inj in E. contradiction.
    - unfold expt_path in E. symmetry in E. eapply ident_no_dot; [|exact E].
      apply expt_ident.
      assert (RS : roll_sig msg = Some sg)
        by (unfold roll_on in R; destruct (defined (n_useroll g) M); [exact R|discriminate]).
      apply (mo_sigs _ MO sg (roll_sig_in _ _ RS)). }
  (* the checksum *)
  assert (CO : exists ms, exec_list (S n) c mr (csm_stmts msg (csm_on M g msg)) = Ok (ms, None) /\
     only (fun q => q = mon_path "csm_error") mr ms /\
     match csm_on M g msg with
     | None => ms = mr
     | Some sg => ms = csm_mem (unp sg d) (hash d) mr
     end).
  { destruct (csm_on M g msg) as [sg|] eqn:R; [|exists mr; repeat split; auto].
    assert (RS : csm_sig msg = Some sg)
      by (unfold csm_on in R; destruct (defined (n_usecsm g) M); [exact R|discriminate]).
    pose proof (mo_sigs _ MO sg (csm_sig_in _ _ RS)) as OK. pose proof (ok_len _ _ OK) as LEN.
    assert (TT : typ mr (mon_path "csm_error") = Some (LBits U32 1))
      by (eapply only_typ; [exact OR|]; eapply only_typ; eauto).
    exists (csm_mem (unp sg d) (hash d) mr). split; [|split; auto].
    - unfold csm_stmts. erewrite exec_list_step; [apply exec_list_nil|].
      eapply csm_exec with (bits := bits) (cs := unp sg d); auto.
      + apply HH. discriminate.
      + unfold only_array. destruct OR as (A & _). destruct Oc as (A' & _). now rewrite A, A'.
      + destruct (mo_csm _ MO sg RS) as (IM & _).
        assert (NI : forall x y, is_ident x = true -> x <> ("_m->" ++ y)%string).
        { intros x y I E. apply ident_chars in I. rewrite E in I. cbn in I. discriminate. }
        destruct OR as (_ & _ & C). rewrite C.
        * destruct Oc as (_ & _ & C'). rewrite C'; [apply HH; discriminate|].
          intros [(f & E)|(rs & _ & E)]; revert E; [apply (NI _ ("mon1." ++ f)%string)|apply NI]; auto.
        * intros [E|(rs & _ & E)]; revert E; [apply (NI _ "mon1.roll_error"%string)|apply NI]; auto.
      + apply stored_carries_fits; [apply OK|lia|apply unp_carries; lia].
      + destruct OR as (_ & _ & C). rewrite C.
        * rewrite FP by apply OK. apply SG. eapply csm_sig_in; eauto.
        * intros [E|(rs & RR & E)].
          -- eapply ident_no_dot; [|exact E]. apply OK.
          -- apply fpath_inj in E.
             assert (RS' : roll_sig msg = Some rs)
               by (unfold roll_on in RR; destruct (defined (n_useroll g) M); [exact RR|discriminate]).
             destruct (mo_roll _ MO rs RS') as [_ NI]. apply NI. rewrite <- E.
             unfold member_names. apply in_or_app. left. apply in_map. eapply csm_sig_in; eauto.
    - unfold csm_mem. eapply only_weaken; [|apply only_set; exact TT]. auto. }
  destruct CO as (ms & EC & OC & VC).
  rewrite (exec_list_steps _ _ _ _ _ _ EC).
  exists ms. split.
  - apply exec_list_step. unfold s_fmon. cbn [exec exec_expr]. rewrite FM. reflexivity.
  - assert (NMs : forall f, f <> "csm_error"%string -> m_scal ms (mon_path f) = m_scal mr (mon_path f)).
    { intros f NE. destruct OC as (_ & _ & C). apply C. intros E. apply mon_path_inj in E. contradiction. }
    constructor.
    + rewrite NMs, NMr by discriminate. subst mc mb ma. setsimp. reflexivity.
    + rewrite NMs, NMr by discriminate. subst mc mb ma. setsimp. reflexivity.
    + intros k' K'. rewrite K' in C1. injection C1 as ->.
      rewrite NMs, NMr by discriminate. subst mc. setsimp. reflexivity.
    + rewrite NMs by discriminate. destruct (roll_on M g msg) as [sg|] eqn:R.
      * intros e E.
        assert (N2 : mon_path "roll_error" <> expt_path sg).
        { intros X. symmetry in X. eapply ident_no_dot; [|exact X]. apply expt_ident.
          assert (RS : roll_sig msg = Some sg)
            by (unfold roll_on in R; destruct (defined (n_useroll g) M); [exact R|discriminate]).
          apply (mo_sigs _ MO sg (roll_sig_in _ _ RS)). }
        split.
        -- rewrite (VR e E). unfold roll_mem. rewrite m_scal_set_other by auto. apply m_scal_set_same.
        -- destruct OC as (_ & _ & C). rewrite C.
           ++ rewrite (VR e E). unfold roll_mem. apply m_scal_set_same.
           ++ intros X. eapply ident_no_dot; [|exact X]. apply expt_ident.
              assert (RS : roll_sig msg = Some sg)
                by (unfold roll_on in R; destruct (defined (n_useroll g) M); [exact R|discriminate]).
              apply (mo_sigs _ MO sg (roll_sig_in _ _ RS)).
      * rewrite VR. subst mc mb ma. setsimp. reflexivity.
    + destruct (csm_on M g msg) as [sg|].
      * rewrite VC. unfold csm_mem. apply m_scal_set_same.
      * rewrite VC, NMr by discriminate. subst mc mb ma. setsimp. reflexivity.
    + eapply only_trans; [exact Oc|]. eapply only_trans.
      * eapply only_weaken; [|exact OR]. intros q [->|E]; [left; eexists; reflexivity|auto].
      * eapply only_weaken; [|exact OC]. intros q ->. left. eexists. reflexivity.
Qed.

(** the struct paths an Unpack function may change *)
Definition unpack_paths (M : mtable) (g : gendesc) (msg : message) (q : string) : Prop :=
  sigs_paths (g_sigs msg) q \/
  (defined (n_usemon g) M = true /\ (is_mon_path q \/ expt_on M g msg q)).

Lemma member_nodup : forall msg, msg_ok msg -> NoDup (sigs_names (g_sigs msg)).
Proof.
  intros msg MO. eapply Permutation_NoDup; [|apply (mo_names _ MO)].
  symmetry. apply sigs_names_perm.
Qed.

Theorem unpack_exec : forall n c g msg bits d dl tick hash h pf m,
  let M := c_macros c in
  gen_ok g -> msg_ok msg -> ctx_ok c -> id_consts M msg ->
  (forall sg, In sg (g_sigs msg) -> s_signed sg = true -> s_len sg <= 32) ->
  has_payload m "_d" (g_dlc msg) d -> (forall q, q <> "_d"%string -> m_arr m q = None) ->
  has_struct (defined (n_usesigfloat g) M) (defined (n_useroll g) M) bits msg m ->
  (defined (n_usesigfloat g) M = true ->
   forall sg, In sg (g_sigs msg) -> s_simple sg = false -> phys_ok (S n) c g bits pf sg) ->
  (defined (n_usemon g) M = true ->
     m_scal m "dlc_" = Some (LInt U8, VI U8 dl) /\ 0 <= dl < 256 /\ has_monitor m /\
     tick_ok (S n) c tick /\
     (csm_on M g msg <> None -> m_scal m (g_csmmethod msg) = None /\
                                hash_ok (S n) c msg (EId "_d") "_d" hash) /\
     c_calls c (fmon_name g msg) = Some (fun _ m => Ok (h m, VI I32 0))) ->
  exists m0 m1, exec_list (S n) c m (stms M (unpack_items g msg))
    = Ok (if defined (n_usemon g) M then h m1 else m1, Some (VI U32 (g_id msg))) /\
    only (sigs_paths (g_sigs msg)) m m0 /\
    (forall sg, In sg (g_sigs msg) ->
       m_scal m0 (fpath (s_name sg))
       = Some (field_ty bits sg, stored (field_ty bits sg) (unp sg d))) /\
    (defined (n_usesigfloat g) M = true -> forall sg, In sg (g_sigs msg) -> s_simple sg = false ->
       m_scal m0 (fpath (s_namefloat sg)) = Some (phys_ty sg, pf sg (unp sg d))) /\
    (defined (n_usesigfloat g) M = false -> forall sg, In sg (g_sigs msg) -> s_simple sg = false ->
       m_scal m0 (fpath (s_namefloat sg)) = m_scal m (fpath (s_namefloat sg))) /\
    (if defined (n_usemon g) M then mon_post M g msg bits d dl tick hash m0 m1 else m1 = m0).
Proof.
  intros n c g msg bits d dl tick hash h pf m M GO MO CO IC S32 PL AR HS PH MN.
  pose proof (mo_dlc _ MO) as GD.
  assert (ARF : forall x, m_arr m (fpath x) = None) by (intros x; apply AR; discriminate).
  destruct (sigs_exec (S n) c g bits (g_dlc msg) d pf (g_sigs msg) m CO ltac:(lia) PL ARF
              (member_nodup msg MO)) as (m0 & E0 & O0 & V0 & F0).
  { intros sg I. split; [apply MO; auto|]. split; [auto|]. apply has_typ. apply (hs_sigs _ _ _ _ _ HS sg I). }
  { intros SF sg I S. split; [|auto]. apply has_typ. apply (hs_phys _ _ _ _ _ HS SF sg I S). }
  unfold unpack_items. rewrite stms_iapp, (act_nodef (sigs_items g (g_sigs msg))) by apply sigs_nodef.
  fold M in E0. rewrite (exec_list_steps _ _ _ _ _ _ E0), mon_stms.
  assert (KEEP : forall p t, has_type m p t -> ~ sigs_paths (g_sigs msg) p -> has_type m0 p t).
  { intros p t (v & X & Y) N. exists v. split; auto. destruct O0 as (_ & _ & C). rewrite C; auto. }
  assert (NMP : forall f, ~ sigs_paths (g_sigs msg) (mon_path f)).
  { intros f (x & I & E). symmetry in E. eapply ident_no_dot; [|exact E].
    unfold sigs_names in I. apply in_flat_map in I. destruct I as (sg & IS & IX).
    pose proof (mo_sigs _ MO sg IS) as OK. unfold sig_names in IX.
    destruct (s_simple sg) eqn:S; destruct IX as [<-|IX].
    - apply OK.
    - contradiction.
    - apply OK.
    - destruct IX as [<-|[]]. apply (ok_phys _ _ OK S). }
  assert (PHYS : (defined (n_usesigfloat g) M = true -> forall sg, In sg (g_sigs msg) -> s_simple sg = false ->
       m_scal m0 (fpath (s_namefloat sg)) = Some (phys_ty sg, pf sg (unp sg d))) /\
    (defined (n_usesigfloat g) M = false -> forall sg, In sg (g_sigs msg) -> s_simple sg = false ->
       m_scal m0 (fpath (s_namefloat sg)) = m_scal m (fpath (s_namefloat sg)))).
  { split; intros SF sg I S; specialize (F0 sg I S); fold M in F0; rewrite SF in F0; exact F0. }
  destruct PHYS as [PHT PHF].
  assert (RET : forall mm, exec_list (S n) c mm [s_ret msg] = Ok (mm, Some (VI U32 (g_id msg)))).
  { intros mm. rewrite exec_list_cons. unfold s_ret, c_id. cbn [exec].
    rewrite (const_eval n c mm _ _ (ic_id _ _ IC)). reflexivity. }
  destruct (defined (n_usemon g) M) eqn:UM.
  - destruct (MN eq_refl) as (DL & DR & HM & TK & HH & FM).
    destruct (mon_exec n c g msg bits d dl tick hash h m0 [s_ret msg]) as (m1 & E1 & P1); auto.
    + apply CO.
    + apply CO.
    + destruct O0 as (_ & _ & C). rewrite C; auto. intros (x & _ & E). discriminate.
    + unfold only_array. destruct O0 as (A & _). rewrite A. split; auto. apply PL.
    + destruct HM as [H1 H2 H3 H4 H5]. constructor; apply KEEP; auto.
    + intros sg R. assert (RS : roll_sig msg = Some sg)
        by (unfold roll_on in R; destruct (defined (n_useroll g) (c_macros c)); [exact R|discriminate]).
      assert (UR : defined (n_useroll g) M = true)
        by (unfold roll_on in R; subst M; destruct (defined (n_useroll g) (c_macros c)); [reflexivity|discriminate]).
      apply KEEP; [apply (hs_expt _ _ _ _ _ HS UR sg RS)|].
      intros (x & I & E). apply fpath_inj in E. subst x.
      destruct (mo_roll _ MO sg RS) as [_ NI]. apply NI.
      unfold member_names, phys_names. eapply Permutation_in; [apply sigs_names_perm|exact I].
    + intros CN. destruct (HH CN) as [HN HO]. split; auto.
      destruct O0 as (_ & _ & C). rewrite C; auto. intros (x & _ & E).
      assert (CS : exists cs, csm_sig msg = Some cs).
      { unfold csm_on in CN. fold M in CN. destruct (defined (n_usecsm g) M); [|congruence].
        destruct (csm_sig msg); [eauto|congruence]. }
      destruct CS as [cs CS]. destruct (mo_csm _ MO cs CS) as (IM & _).
      rewrite E in IM. cbn in IM. discriminate.
    + exists m0, m1. repeat split; auto; try apply O0; try apply P1.
      rewrite <- List.app_assoc. cbn [List.app] in E1 |- *. rewrite <- !List.app_assoc. cbn [List.app].
      fold M in E1. rewrite E1. apply RET.
  - exists m0, m0. cbn [List.app]. rewrite RET. repeat split; auto; apply O0.
Qed.
