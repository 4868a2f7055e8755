(** The tokens of the whole core header. *)

From Coq Require Import ZArith NArith List String Ascii Bool Lia ZifyBool Permutation.
From Verif Require Import Base Dbl CSyntax CSem CRun Types Formatter SigPrinter Writer Settings
  MainGen App CodecSpec MsgSpec LexLemmas BitLemmas CSemLemmas Chunks UnpackProof PPProof BodyLemmas
  UnpackBody UnpackFun PackProof PackBody PackFun SourceFun DriverSpec DriverProof HeaderSpec HeaderProof HeaderRun NamesSpec HeaderNames CodecEnv StructSpec SwitchNames StructProof OutlineSpec.
Import ListNotations.
Open Scope string_scope.

(** ** Lines without tokens of the program *)

Definition mute (l : string) : Prop := directive l <> None \/ lex l = [].
Lemma mute_run : forall ls s, Forall mute ls -> otoks (pp_out (runs s ls)) = otoks (pp_out s).
Proof.
  induction ls as [|l ls IH]; intros s F; [reflexivity|]. inversion_clear F. change (runs s (l :: ls)) with (runs (pp_line s l) ls). rewrite IH by assumption.
  unfold pp_line, pp_push. destruct (directive l) as [[d r]|] eqn:D.
  - destruct (String.eqb d "ifdef"); [reflexivity|]. destruct (String.eqb d "ifndef"); [reflexivity|].
    destruct (String.eqb d "else"); [destruct (pp_stack s); reflexivity|]. destruct (String.eqb d "endif"); [reflexivity|].
    destruct (String.eqb d "define"); [destruct (pp_active s); reflexivity|]. destruct (String.eqb d "if"); reflexivity.
  - destruct (pp_active s); [|reflexivity]. destruct H as [H|H]; [congruence|]. unfold otoks. cbn [pp_out rev]. rewrite map_app, List.concat_app. cbn [map List.concat].
    now rewrite H, !List.app_nil_r.
Qed.
Definition mpart (ps : list string) : Prop := exists ls, part ps ls /\ Forall mute ls.
Lemma mp_nil : mpart [].
Proof. exists []. split; [apply part_nil|constructor]. Qed.
Lemma mp_app : forall a b, mpart a -> mpart b -> mpart (a ++ b).
Proof. intros a b (la & A & EA) (lb & B & EB). exists (la ++ lb)%list. split; [now apply part_app|]. apply Forall_app. auto. Qed.
Lemma mp_cons : forall p b, mpart [p] -> mpart b -> mpart (p :: b).
Proof. intros p b. apply (mp_app [p] b). Qed.
Lemma mp_line : forall s, raw_ok s -> mute s -> mpart [L s].
Proof. intros s R M. exists [s]. split; [now apply part_raw|auto]. Qed.
Lemma mp_dir : forall s, raw_ok ("#" ++ s) -> mpart [L ("#" ++ s)].
Proof. intros s R. apply mp_line; [exact R|]. left. cbn. now destruct (span is_idchar (skip_blanks s)). Qed.
Lemma mp_note : forall s, raw_ok ("//" ++ s) -> mpart [L ("//" ++ s)].
Proof.
  intros s R. apply mp_line; [exact R|]. right. unfold lex. cbn [String.append lex_from]. apply (lex_in_comment s). destruct R as [R _].
  rewrite no_nl_app in R. now apply andb_true_iff in R.
Qed.
Lemma mp_nls : forall n, mpart [nls n].
Proof.
  intros n. exists (repeat "" n). split; [rewrite <- lines_nls; apply part_full, nls_full|]. apply Forall_forall. intros l I. apply repeat_spec in I. subst l. now right.
Qed.
Lemma mp_comment : forall p c, p = "// " \/ p = "  // " -> mpart [append_s (p ++ replace_nl p c)].
Proof.
  intros p c P. eexists. split; [apply part_full, append_s_full|].
  assert (N : no_nl p = true) by (destruct P as [->| ->]; reflexivity).
  pose proof (comment_lines p c N) as F. pose proof (lines_nonl (append_s (p ++ replace_nl p c))) as G.
  rewrite Forall_forall in *. intros l I. destruct (F l I) as [r ->]. specialize (G _ I). rewrite no_nl_app in G.
  apply andb_true_iff in G. destruct G as [_ G]. right.
  destruct P as [->| ->]; unfold lex; cbn [String.append lex_from]; exact (lex_in_comment r G).
Qed.
Lemma mp_info : forall s, info_ok s -> mpart [s].
Proof. intros s [F C]. exists (lines s). split; [now apply part_full|]. eapply Forall_impl; [|exact C]. intros l X. right. now apply lex_comment. Qed.
Lemma mp_concat : forall l, Forall mpart l -> mpart (List.concat l).
Proof. induction 1; cbn [List.concat]; [apply mp_nil|now apply mp_app]. Qed.

(** ** Tokens of a part of the header, when its own definitions do not touch the macros in [K] *)

Definition agree (conf : list (string * macro)) (K : list string) (M : list (string * macro)) : Prop := forall x, In x K -> defined x M = defined x conf.
Definition emits (conf : list (string * macro)) (K ps : list string) (ts : list tok) : Prop :=
  exists ls, part ps ls /\ bal ls /\ ((forall x, In x K -> ~ In x (defines ls)) -> forall s, pp_active s = true -> agree conf K (pp_macros s) ->
    otoks (pp_out (runs s ls)) = (otoks (pp_out s) ++ ts)%list).
Lemma active_bal : forall ls s, bal ls -> pp_active (runs s ls) = pp_active s.
Proof. intros ls s B. unfold pp_active. now rewrite B. Qed.
Lemma em_nil : forall conf K, emits conf K [] [].
Proof. intros conf K. exists []. split; [apply part_nil|]. split; [apply bal_nil|]. intros _ s _ _. cbn. now rewrite List.app_nil_r. Qed.
Lemma em_app : forall conf K a b ta tb, emits conf K a ta -> emits conf K b tb -> emits conf K (a ++ b) (ta ++ tb).
Proof.
  intros conf K a b ta tb (la & PA & BA & EA) (lb & PB & BB & EB). exists (la ++ lb)%list. split; [now apply part_app|]. split; [now apply bal_app|].
  intros D s A G. assert (DA : forall x, In x K -> ~ In x (defines la)) by (intros x I J; apply (D x I); rewrite defines_app; apply in_app_iff; now left).
  rewrite runs_app, EB.
  - rewrite EA by assumption. now rewrite List.app_assoc.
  - intros x I J. apply (D x I). rewrite defines_app. apply in_app_iff. now right.
  - now rewrite active_bal.
  - intros x I. unfold defined. rewrite runs_keep by now apply DA. now apply G.
Qed.
Lemma em_app0 : forall conf K a b tb, emits conf K a [] -> emits conf K b tb -> emits conf K (a ++ b) tb.
Proof. intros conf K a b tb. exact (em_app conf K a b [] tb). Qed.
Lemma em_mute : forall conf K ps, bpart ps -> mpart ps -> emits conf K ps [].
Proof.
  intros conf K ps (ls & P & B) (ls' & P' & F). exists ls. split; [exact P|]. split; [exact B|]. intros _ s _ _. rewrite <- (part_lines _ _ P), (part_lines _ _ P') in *.
  now rewrite mute_run, List.app_nil_r.
Qed.
Lemma em_yields : forall conf K ps f ts, (forall M, ypart M ps (f M)) -> (forall M, agree conf K M -> f M = ts) -> emits conf K ps ts.
Proof.
  intros conf K ps f ts Y E. destruct (Y conf) as (ls & P & Q & _).
  assert (R : forall M k out, forallb id k = true -> exists out', runs (mkst M k out) ls = mkst M k out' /\ otoks out' = (otoks out ++ f M)%list).
  { intros M. destruct (Y M) as (ls' & P' & _ & R). now rewrite <- (part_lines _ _ P), (part_lines _ _ P'). }
  exists ls. split; [exact P|]. split.
  - intros s. destruct (pp_active s) eqn:A; [|now rewrite Q]. destruct s as [M k out]. destruct (R M k out A) as (o & X & _). unfold mkst in X. now rewrite X.
  - intros _ [M k out] A G. cbn [pp_macros] in G. rewrite <- (E M G). destruct (R M k out A) as (o & X & T). unfold mkst in X. rewrite X. exact T.
Qed.

(** macros that the header tests *)
Definition tested (g : gendesc) : list string := (switches g ++ ["__cplusplus"])%list.

(** ** The pieces of a message *)

Lemma const_mp : forall m k v, msg_ok m -> In (k, v) (consts m) -> mpart [L (const_line m k v)].
Proof. intros m k v MO I. pose proof (const_raw m k v MO I) as R. unfold const_line in *. now apply mp_dir. Qed.
Lemma consts_mp : forall m, msg_ok m -> mpart (msg_consts m).
Proof.
  intros m MO. unfold msg_consts.
  apply mp_app; [destruct (has_text (g_comment m)); [apply mp_comment; auto|apply mp_nil]|]. apply mp_app.
  - apply mp_cons.
    + pose proof (no_nl_ident' _ (mo_name m MO)) as N. pose proof (mo_name_len m MO) as LN.
      pose proof (mo_id m MO). pose proof (px_len (g_id m) ltac:(lia)).
      pose proof (decZ_len (swrap 32 (g_id m)) ltac:(pose proof (swrap_in (g_id m)); lia)) as LZ.
      assert (NP : no_nl (pd4l (swrap 32 (g_id m))) = true).
      { unfold pd4l, pad_right. rewrite no_nl_app, decZ_nonl, no_nl_repeat by discriminate. reflexivity. }
      assert (LP : (String.length (pd4l (swrap 32 (g_id m))) <= 70)%nat).
      { unfold pd4l, pad_right. rewrite app_len, len_repeat. lia. }
      apply (mp_note (" def @" ++ g_name m ++ " CAN Message (" ++ pd4l (swrap 32 (g_id m)) ++ " " ++ px (g_id m) ++ ")")).
      raw.
    + apply mp_cons; [apply (const_mp m "_IDE" (" (" ++ pu (g_ext m) ++ "U)")); auto; apply in_app_iff; left; cbn; auto|].
      apply mp_cons; [apply (const_mp m "_DLC" (" (" ++ pu (g_dlc m) ++ "U)")); auto; apply in_app_iff; left; cbn; auto|].
      apply (const_mp m "_CANID" (" (" ++ px (g_id m) ++ "U)")); auto. apply in_app_iff. left. cbn. auto.
  - destruct (0 <? g_cycle m)%Z eqn:CY; [|apply mp_nil].
    apply (const_mp m "_CYC" (" (" ++ decZ (swrap 32 (g_cycle m)) ++ "U)")); auto. apply in_app_iff. right. rewrite CY. now left.
Qed.
Lemma mute_dir : forall s, mute ("#" ++ s).
Proof. intros s. left. cbn. now destruct (span is_idchar (skip_blanks s)). Qed.
Lemma mute_note : forall s, no_nl s = true -> mute ("//" ++ s).
Proof. intros s N. right. unfold lex. cbn [String.append lex_from]. exact (lex_in_comment s N). Qed.
Lemma vt_mp : forall m sg, msg_ok m -> sig_ok (g_dlc m) sg -> header_sig_ok sg -> mpart (value_table m sg).
Proof.
  intros m sg MO SO HO. unfold value_table.
  assert (P : forall l, (forall p, In p l -> In p (s_valdefs sg)) ->
    mpart (List.concat (map (fun p =>
         let defname := str_print (s_name sg ++ "_" ++ g_name m ++ "_" ++ fst p) in
         [L ("#ifndef " ++ defname);
          L ("#define " ++ s_name sg ++ "_" ++ g_name m ++ "_" ++ fst p ++ " ("
               ++ decZ (swrap 32 (snd p)) ++ ")");
          L "#endif"; nls 1]) l))).
  { induction l as [|p l IH]; intros S; [apply mp_nil|]. cbn [map List.concat]. cbv zeta.
    match goal with |- mpart (?a ++ ?b) => change a with (table_pieces m sg p ++ [nls 1])%list end.
    apply mp_app; [|apply IH; intros q I; apply S; now right].
    apply mp_app; [|apply mp_nls]. destruct (table_part m sg p MO SO HO (S p (or_introl eq_refl))) as [T _]. exists (table_lines m sg p). split; [exact T|].
    unfold table_lines. constructor; [apply mute_dir|]. constructor; [apply mute_dir|]. constructor; [apply (mute_dir "endif")|constructor]. }
  specialize (P (s_valdefs sg) (fun p I => I)).
  destruct (s_valdefs sg) as [|q0 qs] eqn:EV; [apply mp_nil|]. rewrite <- EV in *. clear EV.
  pose proof (no_nl_ident' _ (ok_name _ _ SO)) as N2. pose proof (ok_name_len _ _ SO) as L2.
  apply mp_cons; [|apply mp_cons; [apply mp_nls|exact P]].
  set (s := ("// Value tables for @" ++ s_name sg ++ " signal")%string).
  exists [""; s]. split.
  - rewrite <- (lines_L2 "" s); [apply part_full, L_full|reflexivity|unfold s; nonls|discriminate|].
    unfold s. rewrite !app_len. cbn [String.length]. lia.
  - constructor; [now right|]. constructor; [|constructor]. apply (mute_note (" Value tables for @" ++ s_name sg ++ " signal")). nonls.
Qed.
Lemma macros_mp : forall g m sgs passed passed' t, gen_ok g -> msg_ok m -> (forall sg, In sg sgs -> In sg (g_sigs m)) ->
  (forall sg, In sg sgs -> header_sig_ok sg) -> sig_macros g m passed sgs = Ok (passed', t) -> mpart t.
Proof.
  intros g m sgs. induction sgs as [|sg r IH]; intros passed passed' t GO MO SS HO E.
  - injection E as <- <-. apply mp_nil.
  - cbn [sig_macros] in E.
    pose proof (mo_sigs m MO sg (SS sg (or_introl eq_refl))) as SO. pose proof (HO sg (or_introl eq_refl)) as HS.
    destruct (go_len g GO) as (_ & _ & _ & _ & G5 & _).
    pose proof (vt_mp m sg MO SO HS) as V.
    assert (F : forall p1 t1, (if s_simple sg || smem (s_name sg) passed then Ok (passed, [])
         else do t <- print_physical_to_raw sg (n_DRV g); Ok (s_name sg :: passed, [append_s t])%list) = Ok (p1, t1) -> mpart t1).
    { intros p1 t1 F. destruct (s_simple sg || smem (s_name sg) passed).
      - apply Ok_inj in F. apply pair_equal_spec in F. destruct F as [_ <-]. apply mp_nil.
      - destruct (print_physical_to_raw sg (n_DRV g)) as [tx| |] eqn:EP; cbn [bind] in F; try discriminate. apply Ok_inj in F. apply pair_equal_spec in F. destruct F as [_ <-].
        destruct (ptr_part sg (n_DRV g) tx EP (no_nl_ident' _ (go_DRV g GO)) (no_nl_ident' _ (ok_name _ _ SO)) G5 (ok_name_len _ _ SO)
                     (proj1 (hs_nums _ HS)) (proj2 (hs_nums _ HS))) as (a & b & c & C1 & C2).
        eexists. split; [exact C2|]. constructor; [apply (mute_note (" signal: @" ++ s_name sg)); pose proof (no_nl_ident' _ (ok_name _ _ SO)); nonls|].
        repeat (constructor; [apply mute_dir|]). constructor. }
    destruct (if s_simple sg || smem (s_name sg) passed then _ else _) as [[p1 t1]| |] eqn:EF; cbn [bind] in E; try discriminate. specialize (F _ _ eq_refl).
    destruct (sig_macros g m p1 r) as [[p2 ts]| |] eqn:ER; cbn [bind] in E; try discriminate. apply Ok_inj in E. apply pair_equal_spec in E. destruct E as [_ <-].
    apply mp_app; [exact F|]. apply mp_app; [exact V|]. eapply IH; eauto; intros; [apply SS|apply HO]; now right.
Qed.

Definition struct_of (conf : list (string * macro)) (g : gendesc) (m : message) : list tok :=
  if g_notempty m then struct_toks m (macro_members conf g m) else [].
Lemma members_same : forall conf g m M, agree conf (tested g) M -> macro_members M g m = macro_members conf g m.
Proof. intros conf g m M A. unfold macro_members. rewrite !A by (cbn; tauto). reflexivity. Qed.
Lemma msg_header_em : forall conf g m passed passed' t, head_ok g -> hmsg_ok m -> msg_header g passed m = Ok (passed', t) ->
  emits conf (tested g) t (struct_of conf g m).
Proof.
  intros conf g m passed passed' t [SG [UB LB] _] HM E. pose proof (so_gen _ _ SG) as GO. pose proof (consts_mp m (hk_msg _ HM)) as C.
  destruct (consts_top m (hk_msg _ HM)) as [CB _]. unfold msg_header, struct_of in *. destruct (g_notempty m); cbn [negb] in E.
  2: { apply Ok_inj in E; apply pair_equal_spec in E; destruct E as [_ <-]. apply em_mute; [apply bpart_app; [exact CB|apply bp_nls]|apply mp_app; [exact C|apply mp_nls]]. }
  destruct (sig_macros g m passed (g_sigs m)) as [[p2 ms]| |] eqn:EM; cbn [bind] in E; try discriminate.
  destruct (macros_top g m (g_sigs m) passed p2 ms GO (hk_msg _ HM) (fun sg I => I) (hk_sigs _ HM) EM) as (M1 & _).
  pose proof (macros_mp g m (g_sigs m) passed p2 ms GO (hk_msg _ HM) (fun sg I => I) (hk_sigs _ HM) EM) as M2.
  destruct (struct_fields g m true _) as [fb| |] eqn:EB; cbn [bind] in E; try discriminate.
  destruct (struct_fields g m false _) as [fp| |] eqn:EP; cbn [bind] in E; try discriminate. apply Ok_inj in E; apply pair_equal_spec in E; destruct E as [_ <-].
  apply em_app0; [now apply em_mute|]. apply em_app0; [now apply em_mute|].
  apply (em_yields conf (tested g) _ (fun M => struct_toks m (macro_members M g m))).
  - intros M. eapply struct_yp; eauto.
  - intros M A. now rewrite (members_same conf).
Qed.
Lemma msg_headers_em : forall conf g xs passed t, head_ok g -> (forall x, In x xs -> hmsg_ok (x_msg x)) -> msg_headers g passed xs = Ok t ->
  emits conf (tested g) t (flat_map (fun x => struct_of conf g (x_msg x)) xs).
Proof.
  intros conf g. induction xs as [|x r IH]; intros passed t HD OK E.
  - apply Ok_inj in E. subst t. apply em_nil.
  - cbn [msg_headers] in E. destruct (msg_header g passed (x_msg x)) as [[p1 t1]| |] eqn:EH; cbn [bind] in E; try discriminate.
    destruct (msg_headers g p1 r) as [ts| |] eqn:ER; cbn [bind] in E; try discriminate. apply Ok_inj in E. subst t. cbn [flat_map].
    apply em_app; [|apply (IH p1); auto; intros y I; apply OK; now right]. eapply msg_header_em; eauto. apply OK. now left.
Qed.

(** ** The top and the end of the header *)

Lemma em_cpp : forall conf K t b ts, In "__cplusplus" K -> lines (L t) = ["#ifdef __cplusplus"; b; "#endif"] -> directive b = None -> lex b = ts ->
  emits conf K [L t] (if defined "__cplusplus" conf then ts else []).
Proof.
  intros conf K t b ts I E D <-. apply (em_yields conf K _ (fun M => if defined "__cplusplus" M then lex b else [])).
  - intros M. exists (lines (L t)). split; [apply part_full, L_full|]. rewrite E. apply (yields_if M "__cplusplus" [b] "#endif"); [reflexivity|reflexivity|]. now apply yields_line.
  - intros M A. now rewrite A.
Qed.
Lemma cpp_open_em : forall conf K, In "__cplusplus" K ->
  emits conf K [L cpp_open] (if defined "__cplusplus" conf then [TId "extern"; TBad; TId "C"; TBad; TP PLbrace] else []).
Proof. intros conf K I. apply (em_cpp conf K _ ("extern " ++ dq ++ "C" ++ dq ++ " {")%string); [exact I|vm_compute; reflexivity|reflexivity|vm_compute; reflexivity]. Qed.
Lemma cpp_close_em : forall conf K, In "__cplusplus" K -> emits conf K [L cpp_close] (if defined "__cplusplus" conf then [TP PRbrace] else []).
Proof. intros conf K I. apply (em_cpp conf K _ "}"); [exact I|vm_compute; reflexivity|reflexivity|vm_compute; reflexivity]. Qed.

Ltac mlit := apply mp_line; [apply raw_intro; [reflexivity|cbn; lia]|first [right; vm_compute; reflexivity|left; vm_compute; discriminate]].
Lemma top_em : forall conf g mx K, head_ok g -> (0 <= mx < 2 ^ 32)%Z -> In "__cplusplus" K ->
  emits conf K (header_top g mx) (if defined "__cplusplus" conf then [TId "extern"; TBad; TId "C"; TBad; TP PLbrace] else []).
Proof.
  intros conf g mx K [SO [UB LB] [VH VL]] MX IK. pose proof (so_gen _ _ SO) as GO.
  destruct (go_len g GO) as (G1 & G2 & G3 & G4 & G5 & G6). destruct (so_len _ _ SO) as (S1 & S2 & S3 & S4 & S5 & S6 & S7).
  pose proof (no_nl_ident' _ (go_DRV g GO)) as ND. pose proof (no_nl_ident _ (go_drv g GO)) as Nd.
  pose proof (no_nl_ident' _ (go_mon g GO)) as NM. pose proof (no_nl_ident' _ VH) as NH. pose proof (no_nl_ident' _ VL) as NL.
  pose proof (pu_len mx ltac:(lia)) as LM.
  assert (IDR : forall x, all_chars is_idchar x = true -> is_ident (n_DRV g ++ x) = true) by (intros; apply ident_prefix; auto; apply GO).
  assert (RE : raw_ok "#endif") by (apply raw_intro; [reflexivity|cbn; lia]).
  assert (P1 : bpart [n_cominfo g; n_drvinfo g; L "#pragma once"; nls 1]).
  { apply bpart_cons; [apply info_bp, SO|]. apply bpart_cons; [apply info_bp, SO|].
    apply bpart_cons; [apply bp_skip; [apply raw_intro; [reflexivity|cbn; lia]|exists "pragma", "once"; split; reflexivity]|apply bp_nls]. }
  assert (P1' : mpart [n_cominfo g; n_drvinfo g; L "#pragma once"; nls 1]).
  { apply mp_cons; [apply mp_info, SO|]. apply mp_cons; [apply mp_info, SO|]. apply mp_cons; [mlit|apply mp_nls]. }
  set (rest := skipn 5 (header_top g mx)).
  assert (P2 : bpart rest).
  { change rest with ([nls 1] ++ [L "#include <stdint.h>"] ++ [nls 1] ++ [L "// DBC file version"] ++ [L ("#define " ++ ver_hi_s g)] ++ [L ("#define " ++ ver_low_s g)] ++
      [nls 1] ++ [L "// include current dbc-driver compilation config"] ++ [L ("#include " ++ dq ++ n_drv g ++ "-config.h" ++ dq)] ++ [nls 1] ++ (L ("#ifdef " ++ n_usemon g) ::
    [L ("// This file must define:" ++ nl ++ "// base monitor struct" ++ nl
        ++ "#include " ++ dq ++ "canmonitorutil.h" ++ dq ++ nl ++ nl)] ++ [L ("#endif // " ++ n_usemon g)]) ++ 
    [nls 2; L "// DLC maximum value which is used as the limit for frame's data buffer size.";
   L "// Client can set its own value (not sure why) in driver-config";
   L "// or can test it on some limit specified by application";
   L ("// e.g.: static_assert(TESTDB_MAX_DLC_VALUE <= APPLICATION_FRAME_DATA_SIZE, " ++ dq
        ++ "Max DLC value in the driver is too big" ++ dq ++ ")")] ++ max_guard g mx ++ [nls 1; L "// The limit is used for setting frame's data bytes"] ++
        [L ("#define " ++ validate_s g)] ++ [nls 1; L "// Initial byte value to be filles in data bytes of the frame before pack signals";
       L "// User can define its own custom value in driver-config file"] ++ ini_guard g ++ [nls 2])%list.
    repeat match goal with |- bpart (_ ++ _) => apply bpart_app end; try match goal with |- bpart [nls _] => apply bp_nls | |- bpart [L (String "/" _)] => lit end.
    - apply bp_skip; [apply raw_intro; [reflexivity|cbn; lia]|apply (skip_include "<stdint.h>")].
    - apply bp_def; unfold ver_hi_s; [raw|now apply ident_head].
    - apply bp_def; unfold ver_low_s; [raw|now apply ident_head].
    - apply bp_skip; [unfold dq; raw|apply skip_include].
    - apply bp_if; [raw|raw|apply opens_ifdef, GO|apply endif_tail|].
      eexists. split; [apply part_full, L_full|].
      match goal with |- bal ?t => let v := eval vm_compute in t in replace t with v by (vm_compute; reflexivity) end.
      repeat (apply bal_cons; [|try apply bal_nil]); try (apply bal_plain; exact Logic.I).
      apply bal_plain. cbn. intuition discriminate.
    - apply bpart_cons; [apply bp_nls|]. do 3 (apply bpart_cons; [lit|]). lit.
    - apply (bp_if _ [_; _]); [unfold maxdlc_name; raw|exact RE|apply opens_ifndef; now apply IDR|reflexivity|].
      apply bpart_cons; [lit|]. apply bp_def; [unfold max_s, maxdlc_name; raw|unfold max_s; apply ident_head; now apply IDR].
    - apply bpart_cons; [apply bp_nls|lit].
    - apply bp_def; unfold validate_s; [unfold validate_name, maxdlc_name; raw|apply ident_head; now apply IDR].
    - apply bpart_cons; [apply bp_nls|]. apply bpart_cons; lit.
    - apply (bp_if _ [_]); [unfold initial_name; raw|exact RE|apply opens_ifndef; now apply IDR|reflexivity|].
      apply bp_def; [unfold initial_s, initial_name; raw|unfold initial_s; apply ident_head; now apply IDR]. }
  assert (P2' : mpart rest).
  { unfold rest, header_top. cbn [skipn].
    repeat match goal with
      | |- mpart [] => apply mp_nil
      | |- mpart [_] => fail 1
      | |- mpart (_ :: _) => apply mp_cons
      end; try match goal with |- mpart [nls _] => apply mp_nls | |- mpart [L (String _ _)] => mlit end.
    - apply mp_line; [raw|apply mute_dir].
    - apply mp_line; [raw|apply mute_dir].
    - apply mp_line; [unfold dq; raw|apply mute_dir].
    - apply mp_line; [raw|apply mute_dir].
    - eexists. split; [apply part_full, L_full|].
      match goal with |- Forall _ ?t => let v := eval vm_compute in t in replace t with v by (vm_compute; reflexivity) end.
      repeat (apply Forall_cons; [first [right; vm_compute; reflexivity|left; vm_compute; discriminate]|]); apply Forall_nil.
    - apply mp_line; [raw|apply mute_dir].
    - mlit.
    - apply mp_line; [unfold maxdlc_name; raw|apply mute_dir].
    - apply mp_line; [unfold maxdlc_name; raw|apply mute_dir].
    - apply mp_line; [unfold validate_name, maxdlc_name; raw|apply mute_dir].
    - apply mp_line; [unfold initial_name; raw|apply mute_dir].
    - apply mp_line; [unfold initial_name; raw|apply mute_dir]. }
  change (header_top g mx) with ([n_cominfo g; n_drvinfo g; L "#pragma once"; nls 1] ++ [L cpp_open] ++ rest)%list.
  apply em_app0; [now apply em_mute|]. rewrite <- (List.app_nil_r (if defined _ _ then _ else _)). apply em_app; [now apply cpp_open_em|]. now apply em_mute.
Qed.

(** ** Prototypes *)

Definition protos_of (conf : list (string * macro)) (g : gendesc) (m : message) : list tok :=
  if g_notempty m then (un_toks g m ++ [TP PSemi] ++ pa_toks g m (defined (n_usestruct g) conf) ++ [TP PSemi])%list else [].
Lemma pack_lex : forall g m st, all_chars is_idchar (n_orig g) = true -> is_ident (g_name m) = true -> lex (pa_head g m st ++ ";") = (pa_toks g m st ++ [TP PSemi])%list.
Proof.
  intros g m st O N. pose proof (pa_name_ident g m O N) as IU.
  assert (IT : is_ident (g_name m ++ "_t") = true) by (apply ident_prefix; auto).
  destruct st.
  - replace (pa_head g m true ++ ";") with ("uint32_t " ++ (pa_name g m ++ ("(" ++ ((g_name m ++ "_t")
     ++ ("* _m, __CoderDbcCanFrame_t__* cframe);" ++ ""))))).
    2: { unfold pa_head, pa_name. rewrite !app_assoc. reflexivity. }
    unfold lex. lexrun ltac:(rewrite lex_ident' by auto). reflexivity.
  - replace (pa_head g m false ++ ";") with ("uint32_t " ++ (pa_name g m ++ ("(" ++ ((g_name m ++ "_t")
     ++ ("* _m, uint8_t* _d, uint8_t* _len, uint8_t* _ide);" ++ ""))))).
    2: { unfold pa_head, pa_name. rewrite !app_assoc. reflexivity. }
    unfold lex. lexrun ltac:(rewrite lex_ident' by auto). reflexivity.
Qed.
Lemma unpack_lex : forall g m, all_chars is_idchar (n_orig g) = true -> is_ident (g_name m) = true -> lex (un_head g m ++ ";") = (un_toks g m ++ [TP PSemi])%list.
Proof.
  intros g m O N. pose proof (un_name_ident g m O N) as IU.
  assert (IT : is_ident (g_name m ++ "_t") = true) by (apply ident_prefix; auto).
  replace (un_head g m ++ ";") with ("uint32_t " ++ (un_name g m ++ ("(" ++ ((g_name m ++ "_t") ++ ("* _m, const uint8_t* _d, uint8_t dlc_);" ++ ""))))).
  2: { unfold un_head, un_name. rewrite !app_assoc. reflexivity. }
  unfold lex. lexrun ltac:(rewrite lex_ident' by auto). reflexivity.
Qed.
Definition proto_line' (g : gendesc) (m : message) : string :=
  "uint32_t Unpack_" ++ g_name m ++ "_" ++ n_orig g ++ "(" ++ g_name m ++ "_t* _m, const uint8_t* _d, uint8_t dlc_);".
Lemma protos_em : forall conf g m K, src_ok g "" -> msg_ok m -> In (n_usestruct g) K -> emits conf K (msg_prototypes g m) (protos_of conf g m).
Proof.
  intros conf g m K SO MO IK. unfold msg_prototypes, protos_of. destruct (g_notempty m); [|apply em_nil]. cbn [negb].
  destruct (so_len _ _ SO) as (S1 & S2 & _). pose proof (no_nl_ident' _ (so_struct _ _ SO)) as NS.
  pose proof (no_nl_ident _ (so_orig _ _ SO)) as NO.
  pose proof (no_nl_ident' _ (mo_name m MO)) as N1. pose proof (mo_name_len m MO) as L1.
  apply (em_yields conf K _ (fun M => un_toks g m ++ [TP PSemi] ++ pa_toks g m (defined (n_usestruct g) M) ++ [TP PSemi])%list).
  2: { intros M A. now rewrite A. }
  intros M. rewrite List.app_assoc, <- unpack_lex by (apply SO || apply MO).
  match goal with |- ypart _ [?a; ?b; ?c; ?d; ?e; ?f; ?g] _ => change [a; b; c; d; e; f; g] with ([a] ++ (b :: [c] ++ d :: [e] ++ [f]) ++ [g])%list end.
  apply yp_app.
  - replace (un_head g m ++ ";") with (proto_line' g m) by (unfold un_head, proto_line'; rewrite !app_assoc; reflexivity). apply yp_line; [unfold proto_line'; raw|reflexivity].
  - rewrite <- (List.app_nil_r (pa_toks _ _ _ ++ _)). apply yp_app; [|apply yp_nls].
    replace (pa_toks g m (defined (n_usestruct g) M) ++ [TP PSemi])%list with
      (if defined (n_usestruct g) M then lex (pa_head g m true ++ ";") else lex (pa_head g m false ++ ";")) by (rewrite !pack_lex by (apply SO || apply MO); now destruct (defined _ M)).
    apply yp_if_else; [apply SO|raw|apply raw_intro; [reflexivity|cbn; lia]|raw|reflexivity|apply endif_tail| |].
    + replace (pa_head g m true ++ ";") with ("uint32_t Pack_" ++ g_name m ++ "_" ++ n_orig g ++ "(" ++ g_name m ++ "_t* _m, __CoderDbcCanFrame_t__* cframe);")
        by (unfold pa_head; rewrite !app_assoc; reflexivity). apply yp_line; [raw|reflexivity].
    + replace (pa_head g m false ++ ";") with ("uint32_t Pack_" ++ g_name m ++ "_" ++ n_orig g ++ "(" ++ g_name m ++ "_t* _m, uint8_t* _d, uint8_t* _len, uint8_t* _ide);")
        by (unfold pa_head; rewrite !app_assoc; reflexivity). apply yp_line; [raw|reflexivity].
Qed.

Lemma em_concat : forall (A : Type) conf K (f : A -> list string) (ts : A -> list tok) l, (forall x, In x l -> emits conf K (f x) (ts x)) ->
  emits conf K (List.concat (map f l)) (flat_map ts l).
Proof.
  intros A conf K f ts. induction l as [|x l IH]; intros H; cbn [map List.concat flat_map]; [apply em_nil|].
  apply em_app; [apply H; now left|]. apply IH. intros y I. apply H. now right.
Qed.

Lemma main_header_em : forall conf g mx xs ps, head_ok g -> (0 <= mx < 2 ^ 32)%Z -> (forall x, In x xs -> hmsg_ok (x_msg x)) -> main_header g mx xs = Ok ps ->
  emits conf (tested g) ps ((if defined "__cplusplus" conf then [TId "extern"; TBad; TId "C"; TBad; TP PLbrace] else []) ++
    flat_map (fun x => struct_of conf g (x_msg x)) xs ++ flat_map (fun x => protos_of conf g (x_msg x)) xs ++ (if defined "__cplusplus" conf then [TP PRbrace] else [])).
Proof.
  intros conf g mx xs ps HD MX OK E. unfold main_header in E.
  destruct (msg_headers g [] xs) as [t| |] eqn:EH; cbn [bind] in E; try discriminate. apply Ok_inj in E. subst ps.
  assert (IC : In "__cplusplus" (tested g)) by (unfold tested; cbn; tauto).
  apply em_app; [now apply top_em|]. apply em_app; [eapply msg_headers_em; eauto|].
  apply em_app0; [apply em_mute; [apply bpart_cons; [lit|apply bp_nls]|apply mp_cons; [mlit|apply mp_nls]]|].
  apply em_app; [|now apply cpp_close_em]. apply (em_concat _ _ _ (fun x => msg_prototypes g (x_msg x))). intros x I. apply protos_em; [apply HD|apply OK; auto|].
  unfold tested; cbn; tauto.
Qed.

(** ** Header and source together *)

Lemma driver_outline : forall drv g d h c conf M, driver drv g d h c -> header_ok d -> splice h = h -> (forall x, In x (switches g) -> ~ In x (defines (lines h))) ->
  exists ms, Permutation ms (d_msgs d) /\ n_orig g = drv /\
    text_toks conf h = ((if defined "__cplusplus" conf then [TId "extern"; TBad; TId "C"; TBad; TP PLbrace] else []) ++
      flat_map (struct_of conf g) ms ++ flat_map (protos_of conf g) ms ++ (if defined "__cplusplus" conf then [TP PRbrace] else []))%list /\
    compile M c = {| u_macros := with_defaults M; u_funs := ext_def :: flat_map (msg_defs (with_defaults M) g) ms |}.
Proof.
  intros drv g d h c conf M DR HO SP KS.
  assert (KP : forall x, In x (tested g) -> ~ In x (defines (lines h))).
  { intros x X. unfold tested in X. apply in_app_iff in X as [X|[<-|[]]]; [auto|]. eapply cpp_free; eauto. }
  clear KS. destruct DR as [RUN [DI DL] MS ND].
  destruct RUN as (srt & out & date & dbc & hi & low & nc & ni & nf & rest & SR & DT & DB & HI & LO & G & GM).
  set (s := configure drv out (common_info date) (driver_info dbc) hi low nc ni nf) in *.
  assert (EO : forall m, In m (d_msgs d) -> emit_ok m).
  { intros m I. destruct (MS m I) as (A & B & C). constructor; auto. now apply short_few. }
  destruct (map_res_loaded (d_msgs d)) as (xs0 & LM & F0).
  { intros m I. split; apply (EO m I). }
  unfold generate_main in GM. rewrite load_messages_map, LM in GM. cbn [bind] in GM.
  set (xs := srt ciexpr (fun x => g_id (x_msg x)) xs0) in *.
  assert (PX : Permutation xs xs0) by apply SR.
  destruct (loaded_self _ _ F0) as [FS EM].
  assert (FX : Forall2 loaded (map x_msg xs) xs).
  { apply self_loaded. apply (Permutation_Forall (Permutation_sym PX)). exact FS. }
  assert (PM : Permutation (map x_msg xs) (d_msgs d)) by (rewrite EM; now apply Permutation_map).
  assert (IM : forall m, In m (map x_msg xs) -> emit_ok m).
  { intros m I. apply EO. eapply Permutation_in; eauto. }
  assert (HK : forall x, In x xs -> hmsg_ok (x_msg x)).
  { intros x I. assert (IM' : In (x_msg x) (d_msgs d)) by (eapply Permutation_in; [exact PM|now apply in_map]).
    constructor; [apply (MS _ IM')|]. intros sg S. eapply ho_sigs; eauto. }
  pose proof (configure_ok drv out date dbc hi low nc ni nf DI DL DT DB HI LO) as SO. cbv zeta in SO. fold s in SO.
  pose proof (configure_head drv out date dbc hi low nc ni nf DI DL DT DB HI LO) as HD. fold s in HD.
  destruct (source_compiles M (st_g s) (f_coreh (st_f s)) (map x_msg xs) xs SO FX (fun m I _ => IM m I)) as (t & ES & CP).
  subst g.
  destruct (main_header (st_g s) (d_maxdlc d) xs) as [hd| |] eqn:EH; cbn [bind] in GM; try discriminate.
  rewrite ES in GM. cbn [bind] in GM. injection GM as <- <- _.
  exists (map x_msg xs). split; [exact PM|]. split; [reflexivity|]. split; [|exact CP].
  destruct (main_header_em conf (st_g s) (d_maxdlc d) xs hd HD ltac:(pose proof (ho_dlc d HO); lia) HK EH) as (ls & P & B & Y).
  unfold text_toks. change ("" ++ ?x) with x in SP. 
  rewrite SP. unfold pp_run. change (fold_left pp_line ?l ?s) with (runs s l).
  change (List.concat (map lex (rev (pp_out ?s)))) with (otoks (pp_out s)).
  rewrite (part_lines _ _ P) in KP |- *. rewrite Y; [|exact KP|reflexivity|intros x _; reflexivity].
  cbn [pp_out otoks rev map List.concat List.app]. rewrite !flat_map_concat_map, !map_map. reflexivity.
Qed.
