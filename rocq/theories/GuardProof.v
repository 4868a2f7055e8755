(** The version guards of the emitted sources, the prototypes of the header and the calls of Receive. *)

From Coq Require Import ZArith NArith List String Ascii Bool Lia ZifyBool Permutation Sorted.
From Verif Require Import Base Dbl CSyntax CSem CRun Types Formatter SigPrinter Writer Settings MainGen UtilGen App CodecSpec MsgSpec
  LexLemmas BitLemmas CSemLemmas Chunks PPProof BodyLemmas UnpackBody UnpackFun PackProof PackBody PackFun SourceFun DriverSpec DriverProof HeaderSpec HeaderProof HeaderRun HeaderTables HeaderVer
  CodecEnv StructSpec StructProof UtilSpec UtilTree UtilProof UtilThms GuardSpec.
Import ListNotations.
Open Scope string_scope.

(** ** Lines without #if and #error *)

Definition calm (l : string) : Prop := match dword l with Some d => d <> "if" /\ d <> "error" | None => True end.

Lemma calm_line : forall p er l, calm l -> err_line (p, er) l = (pp_line p l, er).
Proof.
  intros p er l C. unfold calm, dword in C. unfold err_line. destruct (directive l) as [[d r]|]; [|reflexivity]. destruct C as [C1 C2].
  destruct (String.eqb_spec d "if"); [contradiction|]. destruct (String.eqb_spec d "error"); [contradiction|]. reflexivity.
Qed.
Lemma calm_lines : forall ls p er, Forall calm ls -> fold_left err_line ls (p, er) = (fold_left pp_line ls p, er).
Proof. induction ls as [|l ls IH]; intros p er F; [reflexivity|]. inversion_clear F. cbn [fold_left]. rewrite calm_line by assumption. now apply IH. Qed.

(** a guard between calm lines, when its condition is zero *)
Lemma guard_quiet : forall M pre cond e post p, Forall calm pre -> Forall calm post ->
  fold_left pp_line pre (mkst M [] []) = mkst M [] p -> (exists c r, cond = String c r /\ is_blank c = false) -> cond_value M cond = Some 0%Z ->
  snd (fold_left err_line (pre ++ (("#if " ++ cond)%string :: ("#error " ++ e)%string :: "#endif" :: post)) (mkst M [] [], [])) = [].
Proof.
  intros M pre cond e post p C1 C2 R (c & r & -> & B) V. rewrite fold_left_app, calm_lines, R by assumption. cbn [fold_left].
  assert (D1 : directive ("#if " ++ String c r) = Some ("if", String c r)).
  { pose proof (directive_word "if" (String c r) eq_refl ltac:(discriminate)) as D. change ("#if " ++ String c r) with ("#" ++ "if" ++ " " ++ String c r). rewrite D.
    unfold skip_blanks. cbn [span]. now rewrite B. }
  assert (D2 : directive ("#error " ++ e) = Some ("error", skip_blanks e)) by exact (directive_word "error" e eq_refl ltac:(discriminate)).
  unfold err_line at 4. rewrite D1. cbn [String.eqb Ascii.eqb Bool.eqb mkst pp_macros]. fold (mkst M [] p). rewrite V.
  unfold err_line at 3. rewrite D2. cbn [String.eqb Ascii.eqb Bool.eqb mkst pp_macros pp_push pp_active pp_stack forallb id andb].
  unfold err_line at 2. cbn [directive skip_blanks span is_blank is_idchar].
  match goal with |- context [fold_left err_line post ?x] => change x with (mkst M [] p, @nil string) end.
  now rewrite calm_lines by assumption.
Qed.

(** ** The condition *)

Definition ver_cond (a b : string) (hi low : Z) : string := "(" ++ a ++ " != (" ++ pu hi ++ "U)) || (" ++ b ++ " != (" ++ pu low ++ "U))".

Lemma pu_tok : forall z c r, (0 <= z < 2 ^ 32)%Z -> word_ends c = true ->
  lex_from LIdle (pu z ++ String "U" (String c r)) = TInt U32 z :: lex_from LIdle (String c r).
Proof. intros z c r Z W. unfold pu. rewrite lex_decU; [|lia|exact W]. now rewrite Z2N.id by lia. Qed.

Lemma cond_lex : forall a b hi low, is_ident a = true -> is_ident b = true -> (0 <= hi < 2 ^ 32)%Z -> (0 <= low < 2 ^ 32)%Z ->
  lex (ver_cond a b hi low) = [TP PLpar; TId a; TP (PBin ONe); TP PLpar; TInt U32 hi; TP PRpar; TP PRpar; TP (PBin OLor);
                               TP PLpar; TId b; TP (PBin ONe); TP PLpar; TInt U32 low; TP PRpar; TP PRpar].
Proof.
  intros a b hi low A B H L. unfold ver_cond, lex.
  replace ("(" ++ a ++ " != (" ++ pu hi ++ "U)) || (" ++ b ++ " != (" ++ pu low ++ "U))") with
    ("(" ++ (a ++ (" != (" ++ (pu hi ++ String "U" (String ")" (") || (" ++ (b ++ (" != (" ++ (pu low ++ String "U" (String ")" (")" ++ ""))))))))))).
  2: { cbn [append]; reflexivity. }
  lexrun ltac:(rewrite lex_ident' by auto). rewrite pu_tok by auto.
  match goal with |- context [String ")" (") || (" ++ ?x)] => change (String ")" (") || (" ++ x)) with (")) " ++ "|| (" ++ x) end.
  lexrun ltac:(rewrite lex_ident' by auto). rewrite pu_tok by auto. reflexivity.
Qed.

Lemma cond_zero : forall M a b hi low, is_ident a = true -> is_ident b = true -> (0 <= hi < 2 ^ 32)%Z -> (0 <= low < 2 ^ 32)%Z ->
  is_typename a = false -> is_typename b = false -> const_macro M a hi -> const_macro M b low -> cond_value M (ver_cond a b hi low) = Some 0%Z.
Proof.
  intros M a b hi low A B H L TA TB CA CB. unfold cond_value, parse_expr. rewrite cond_lex by auto.
  assert (PE : parse_expr_toks [TP PLpar; TId a; TP (PBin ONe); TP PLpar; TInt U32 hi; TP PRpar; TP PRpar; TP (PBin OLor);
      TP PLpar; TId b; TP (PBin ONe); TP PLpar; TInt U32 low; TP PRpar; TP PRpar] =
    Some (EBin OLor (EBin ONe (EId a) (EInt U32 hi)) (EBin ONe (EId b) (EInt U32 low)))).
  { unfold parse_expr_toks. cbn [erun estep]. rewrite TA. cbn -[is_typename]. rewrite TB. reflexivity. }
  rewrite PE. clear PE. cbv beta iota.
  pose proof (const_eval 0 (leaf_ctx M) no_mem a hi CA) as EA. pose proof (const_eval 0 (leaf_ctx M) no_mem b low CB) as EB.
  assert (NE : forall x z, eval 1 (leaf_ctx M) no_mem [] (EId x) = Ok (VI U32 z) -> (0 <= z < 2 ^ 32)%Z ->
    eval 1 (leaf_ctx M) no_mem [] (EBin ONe (EId x) (EInt U32 z)) = Ok (VI I32 0)).
  { intros x z E Z. change (eval 1 (leaf_ctx M) no_mem [] (EBin ONe (EId x) (EInt U32 z))) with
      (do v <- eval 1 (leaf_ctx M) no_mem [] (EId x); do w <- eval 1 (leaf_ctx M) no_mem [] (EInt U32 z); bin_val ONe v w).
    rewrite E. cbn [bind]. change (eval 1 (leaf_ctx M) no_mem [] (EInt U32 z)) with (@Ok cval (VI U32 z)). cbn [bind].
    unfold bin_val. cbn. rewrite Z.eqb_refl. reflexivity. }
  change (eval 1 (leaf_ctx M) no_mem [] (EBin OLor (EBin ONe (EId a) (EInt U32 hi)) (EBin ONe (EId b) (EInt U32 low)))) with
    (do v <- eval 1 (leaf_ctx M) no_mem [] (EBin ONe (EId a) (EInt U32 hi));
     if truth v then Ok (vbool true) else do w <- eval 1 (leaf_ctx M) no_mem [] (EBin ONe (EId b) (EInt U32 low)); Ok (vbool (truth w))).
  rewrite !NE by auto. reflexivity.
Qed.

(** ** The driver's source *)

Fixpoint calms (i : items) : Prop :=
  match i with
  | INil => True
  | ILine s _ r => calms r
  | IDef s r => calms r
  | ISkip s r => calm s /\ calms r
  | ICond n x a e b t r => calms a /\ calms b /\ calms r
  | INever _ _ _ _ => False
  end.
Lemma calms_iapp : forall a b, calms a -> calms b -> calms (iapp a b).
Proof.
  induction a as [|s ss r IHr|s r IHr|s r IHr|n x a IHa e b' IHb t r IHr|s a IHa t r IHr]; intros b A B; cbn [iapp calms] in *; auto; intuition.
Qed.
Lemma calms_clist : forall l r, calms r -> calms (clist l r).
Proof. induction l as [|s l IH]; intros r C; [exact C|]. cbn [clist fold_right calms]. now apply IH. Qed.
Lemma calm_none : forall s, directive s = None -> calm s.
Proof. intros s D. unfold calm, dword. now rewrite D. Qed.
Lemma calm_word : forall w s, all_chars is_idchar w = true -> w <> "" -> w <> "if" -> w <> "error" -> calm ("#" ++ w ++ " " ++ s).
Proof. intros w s I N A B. unfold calm, dword. pose proof (directive_word w s I N) as D. rewrite D. auto. Qed.
Lemma calm_end : forall t, end_tail t -> calm ("#endif" ++ t).
Proof.
  intros t [->|(r & ->)]; [split; discriminate|]. change ("#endif" ++ String " " r) with ("#" ++ "endif" ++ " " ++ r). apply calm_word; [reflexivity| | |]; discriminate.
Qed.

Lemma flat_calm : forall i, iwf i -> calms i -> Forall calm (flat i).
Proof.
  induction i as [|s ss r IHr|s r IHr|s r IHr|n x a IHa e b IHb t r IHr|s a IHa t r IHr]; intros W C; cbn [iwf calms flat] in *.
  - constructor.
  - destruct W as (W1 & W2). constructor; [|now apply IHr]. now apply calm_none.
  - destruct W. constructor; [|now apply IHr]. apply (calm_word "define"); [reflexivity| | |]; discriminate.
  - destruct W, C. constructor; auto.
  - destruct W as (W1 & W2 & W3 & W4 & W5 & W6), C as (C1 & C2 & C3). constructor.
    + destruct n; [apply (calm_word "ifndef")|apply (calm_word "ifdef")]; try reflexivity; discriminate.
    + apply Forall_app. split; [now apply IHa|]. apply Forall_app. split.
      * destruct e; [|constructor]. constructor; [split; discriminate|now apply IHb].
      * constructor; [now apply calm_end|now apply IHr].
  - contradiction.
Qed.

Ltac calm_tac := repeat first [apply calms_iapp | progress cbn [calms] | split | exact Logic.I | apply calms_clist].
Lemma sigs_calms : forall g sgs, calms (sigs_items g sgs).
Proof.
  induction sgs as [|sg r IH]; cbn [sigs_items calms]; auto. apply calms_iapp; auto. unfold sig_items. cbn [calms].
  destruct (s_simple sg); [destruct r|]; cbn [calms]; auto.
Qed.
Lemma unpack_calms : forall g m, calms (unpack_items g m).
Proof.
  intros. unfold unpack_items. apply calms_iapp; [apply sigs_calms|]. unfold mon_items. cbn [calms].
  repeat split; auto. apply calms_iapp; [|apply calms_iapp; [|exact Logic.I]].
  - unfold roll_items. destruct (roll_sig m); cbn [calms]; auto.
  - unfold csm_items. destruct (csm_sig m); cbn [calms]; auto.
Qed.
Lemma toS_calms : forall g l, calms (toS_items g l).
Proof. induction l; cbn [toS_items calms]; auto. destruct (s_simple a); cbn [calms]; auto. Qed.
Lemma bytes_calms : forall st sgs n i, calms (bytes_items st sgs n i).
Proof. induction n; intros; cbn [bytes_items calms]; auto. destruct (byte_parts sgs i); cbn [calms]; auto. Qed.
Lemma pack_calms : forall g m st, calms (pack_items g m st).
Proof.
  intros. unfold pack_items. cbn [calms].
  assert (A1 : calms (inc_items g m)) by (unfold inc_items; destruct (roll_sig m); cbn [calms]; auto).
  assert (A2 : calms (csm0_items g m)) by (unfold csm0_items; destruct (csm_sig m); cbn [calms]; auto).
  assert (A3 : calms (csm1_items g m st)) by (unfold csm1_items; destruct (csm_sig m); cbn [calms]; auto).
  assert (A4 : calms (phys_items g m)) by (unfold phys_items; destruct (g_hasphys m); cbn [calms]; auto using toS_calms).
  repeat first [apply calms_iapp | exact A1 | exact A2 | exact A3 | exact A4 | apply bytes_calms | progress cbn [calms]].
  destruct st; cbn; auto.
Qed.
Lemma msg_calms : forall g m, calms (msg_items g m).
Proof.
  intros. unfold msg_items. destruct (g_notempty m); [|exact Logic.I]. cbn [calms].
  apply calms_iapp; [apply (unpack_calms g m)|]. unfold pack_fun_items. cbn [calms].
  repeat split; apply calms_iapp; try apply pack_calms; cbn [calms]; auto.
Qed.
Lemma msgs_calms : forall g ms, calms (fold_right (fun m r => iapp (msg_items g m) r) INil ms).
Proof. induction ms; cbn [fold_right]; [exact Logic.I|]. apply calms_iapp; [apply msg_calms|auto]. Qed.

(** the source behind its guard *)
Definition rest_items (g : gendesc) (ms : list message) : items :=
  clist [""] (ICond false (n_usemon g)
       (clist ["// Function prototypes to be called each time CAN frame is unpacked";
               "// FMon function may detect RC, CRC or DLC violation"]
          (ISkip ("#include " ++ dq ++ n_drv g ++ "-fmon.h" ++ dq) (clist [""] INil)))
       false INil (" // " ++ n_usemon g)
    (clist tick_comment
    (ICond true "GetSystemTick" (IDef "GetSystemTick() (0u)" INil) false INil ""
    (clist hash_comment
    (ICond true "GetFrameHash" (IDef "GetFrameHash(a,b,c,d,e) (0u)" INil) false INil ""
    (clist ("" :: lines extend_func_text) (fold_right (fun m r => iapp (msg_items g m) r) INil ms))))))).
Definition pre_lines (g : gendesc) (coreh : string) : list string :=
  (lines (n_cominfo g) ++ lines (n_drvinfo g) ++ [("#include " ++ dq ++ coreh ++ dq)%string; ""; ""; "// DBC file version"])%list.

Lemma iapp_clist : forall l a b, iapp (clist l a) b = clist l (iapp a b).
Proof. induction l as [|s l IH]; intros a b; [reflexivity|]. cbn [clist fold_right iapp]. f_equal. apply IH. Qed.
Lemma src_split : forall g coreh ms, flat (src_items g coreh ms) =
  (pre_lines g coreh ++ ("#if " ++ if_ver g)%string :: ("#error " ++ ("The " ++ n_DRV g ++ " dbc source files have different versions"))%string :: "#endif" :: flat (rest_items g ms))%list.
Proof.
  intros g coreh ms. unfold src_items, top_items, rest_items, pre_lines.
  set (B := fold_right _ INil ms). generalize (lines extend_func_text) as ef. intros ef.
  repeat (rewrite !iapp_clist; cbn [iapp]). repeat (rewrite !flat_clist; cbn [flat]).
  rewrite <- !List.app_assoc. reflexivity.
Qed.
Lemma calm_include : forall s, calm ("#include " ++ s).
Proof. intros s. apply (calm_word "include"); [reflexivity| | |]; discriminate. Qed.
Lemma rest_calm : forall g coreh ms, iwf (src_items g coreh ms) -> Forall calm (flat (rest_items g ms)).
Proof.
  intros g coreh ms W. apply flat_calm.
  - revert W. unfold src_items, top_items, rest_items. set (B := fold_right _ INil ms). generalize (lines extend_func_text) as ef. intros ef.
    repeat (rewrite !iapp_clist; cbn [iapp]).
    assert (D : forall l r, iwf (clist l r) -> iwf r) by (induction l as [|s l IH]; intros r X; [exact X|destruct X as [_ X]; now apply IH]).
    intros W. apply D in W. apply D in W. cbn [iwf] in W. destruct W as [_ W]. apply D in W. cbn [iwf] in W. apply W.
  - unfold rest_items. apply calms_clist. cbn [calms]. split; [|split; [exact Logic.I|]].
    + apply calms_clist. cbn [calms]. split; [apply calm_include|]. apply calms_clist. exact Logic.I.
    + apply calms_clist. cbn [calms]. split; [exact Logic.I|split; [exact Logic.I|]]. apply calms_clist. cbn [calms]. split; [exact Logic.I|split; [exact Logic.I|]].
      apply calms_clist. apply msgs_calms.
Qed.
Lemma plain_run : forall ls M k out, Forall (fun s => directive s = None) ls -> forallb id k = true -> fold_left pp_line ls (mkst M k out) = mkst M k (rev ls ++ out).
Proof.
  induction ls as [|l ls IH]; intros M k out F K; [reflexivity|]. inversion_clear F. cbn [fold_left].
  unfold pp_line at 2. rewrite H. unfold pp_active. cbn [mkst pp_stack pp_macros pp_out]. rewrite K. fold (mkst M k (l :: out)).
  rewrite IH by assumption. cbn [rev]. now rewrite <- List.app_assoc.
Qed.
Lemma pre_run : forall M g coreh, src_ok g coreh -> Forall calm (pre_lines g coreh) /\ exists p, fold_left pp_line (pre_lines g coreh) (mkst M [] []) = mkst M [] p.
Proof.
  intros M g coreh SO. pose proof (comments_plain _ (proj2 (so_cominfo _ _ SO))) as C1. pose proof (comments_plain _ (proj2 (so_drvinfo _ _ SO))) as C2.
  unfold pre_lines. split.
  - apply Forall_app. split; [eapply Forall_impl; [|exact C1]; intros a A; now apply calm_none|]. apply Forall_app. split; [eapply Forall_impl; [|exact C2]; intros a A; now apply calm_none|].
    constructor; [apply calm_include|]. repeat constructor.
  - rewrite !fold_left_app, !plain_run by auto. set (x := fold_left _ _ _). 
    change x with (fold_left pp_line ["#include " ++ dq ++ coreh ++ dq; ""; ""; "// DBC file version"] (mkst M [] (rev (lines (n_drvinfo g)) ++ rev (lines (n_cominfo g)) ++ []))). clear x.
    cbn [fold_left]. rewrite line_skip by apply skip_include. eexists. reflexivity.
Qed.

(** texts of a driver *)
Record driver_text (drv : string) (g : gendesc) (d : dbclist) (h c : string) : Prop := {
  dt_src : exists ms, src_ok g (str_tolower drv ++ ".h") /\ lines c = flat (src_items g (str_tolower drv ++ ".h") ms) /\ iwf (src_items g (str_tolower drv ++ ".h") ms) /\ Permutation ms (d_msgs d);
  dt_head : exists xs ps, head_ok g /\ Permutation (map x_msg xs) (d_msgs d) /\ (forall x, In x xs -> hmsg_ok (x_msg x)) /\ main_header g (d_maxdlc d) xs = Ok ps /\ h = sconcat ps;
  dt_ver : (0 <= n_hi g < 2 ^ 32)%Z /\ (0 <= n_low g < 2 ^ 32)%Z;
  dt_orig : n_orig g = drv;
  dt_plain : is_typename (n_verhi g) = false /\ is_typename (n_verlow g) = false
}.
Lemma driver_texts : forall drv g d h c, driver drv g d h c -> header_ok d -> driver_text drv g d h c.
Proof.
  intros drv g d h c [RUN [DI DL] MS ND] HO.
  destruct RUN as (srt & out & date & dbc & hi & low & nc & ni & nf & rest & SR & DT & DB & HI & LO & G & GM).
  set (s := configure drv out (common_info date) (driver_info dbc) hi low nc ni nf) in *.
  assert (EO : forall m, In m (d_msgs d) -> emit_ok m).
  { intros m I. destruct (MS m I) as (A & B & C). constructor; auto. now apply short_few. }
  destruct (map_res_loaded (d_msgs d)) as (xs0 & LM & F0).
  { intros m I. split; apply (EO m I). }
  unfold generate_main in GM. rewrite load_messages_map, LM in GM. cbn [bind] in GM.
  set (xs := srt ciexpr (fun x => g_id (x_msg x)) xs0) in *.
  assert (PX : Permutation xs xs0) by apply SR.
  destruct (loaded_self _ _ F0) as [FS EM].
  assert (PM : Permutation (map x_msg xs) (d_msgs d)) by (rewrite EM; now apply Permutation_map).
  assert (HK : forall x, In x xs -> hmsg_ok (x_msg x)).
  { intros x I. assert (IM' : In (x_msg x) (d_msgs d)) by (eapply Permutation_in; [exact PM|now apply in_map]).
    constructor; [apply (MS _ IM')|]. intros sg S. eapply ho_sigs; eauto. }
  pose proof (configure_head drv out date dbc hi low nc ni nf DI DL DT DB HI LO) as HD. fold s in HD.
  pose proof (configure_ok drv out date dbc hi low nc ni nf DI DL DT DB HI LO) as SO. cbv zeta in SO. fold s in SO.
  rewrite <- G in *.
  destruct (main_header g (d_maxdlc d) xs) as [hd| |] eqn:EH; cbn [bind] in GM; try discriminate.
  destruct (main_source g (f_coreh (st_f s)) xs) as [sc| |] eqn:ES; cbn [bind] in GM; try discriminate.
  cbn [List.app] in GM. injection GM as <- <- _.
  assert (FC : f_coreh (st_f s) = (str_tolower drv ++ ".h")%string) by (subst s; reflexivity). rewrite FC in *.
  constructor.
  - assert (FX : Forall2 loaded (map x_msg xs) xs).
    { clear - FS PX. assert (A : forall x, In x xs -> loaded (x_msg x) x).
      { intros x I. apply (Permutation_in _ PX) in I. revert FS I. clear. intros FS I. rewrite Forall_forall in FS. now apply FS. }
      clear - A. induction xs as [|x l IH]; cbn [map]; constructor; [apply A; now left|]. apply IH. intros y I. apply A. now right. }
    exists (map x_msg xs). split; [exact SO|].
    destruct (msgs_text g _ (map x_msg xs) xs SO FX) as (ts & E & FL & PL & W).
    { intros m I _. apply EO. eapply Permutation_in; eauto. }
    unfold main_source in ES. rewrite E in ES. cbn [bind] in ES. apply Ok_inj in ES. subst sc.
    split; [|split; [apply iwf_iapp; auto; now apply top_wf|exact PM]].
    rewrite lines_pieces by (apply Forall_app; split; [now apply top_full|exact FL]).
    rewrite plines_app, top_text, PL by auto. now rewrite <- flat_iapp.
  - exists xs, hd. auto.
  - rewrite G. subst s. cbn. auto.
  - rewrite G. subst s. reflexivity.
  - rewrite G. subst s. split; reflexivity.
Qed.

Lemma source_quiet : forall drv g d h c conf, driver drv g d h c -> header_ok d ->
  errors (after_header conf h) c = [].
Proof.
  intros drv g d h c conf DR HO. destruct (driver_texts _ _ _ _ _ DR HO) as [(ms & SO & EL & W & PMS) (xs & ps & HD & _) [V1 V2] _ [T1 T2]].
  destruct (version_kept drv g d h c conf DR HO) as [C1 C2]. destruct (hd_ver _ HD) as [I1 I2].
  unfold errors. rewrite EL, src_split. destruct (pre_run (after_header conf h) g _ SO) as (P1 & p & P2).
  apply (guard_quiet (after_header conf h) _ (if_ver g) _ _ p P1); [now apply (rest_calm g _ ms W)|exact P2|do 2 eexists; split; reflexivity|].
  apply (cond_zero (after_header conf h) (n_verhi g) (n_verlow g) (n_hi g) (n_low g)); auto.
Qed.
