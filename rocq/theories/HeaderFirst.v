(** Value tables with equal names: the first entry in the header decides. *)

From Coq Require Import ZArith NArith List String Ascii Bool Lia ZifyBool Permutation.
From Verif Require Import Base Dbl CSyntax CSem CRun Types Formatter SigPrinter Writer Settings
  MainGen App CodecSpec MsgSpec LexLemmas BitLemmas CSemLemmas Chunks UnpackProof PPProof BodyLemmas
  UnpackBody UnpackFun PackProof PackBody PackFun SourceFun DriverSpec DriverProof HeaderSpec HeaderProof HeaderRun HeaderTables NamesSpec HeaderNames NamesThms.
Import ListNotations.
Open Scope string_scope.

(** lines that leave [x] as it is, or define it as [e] when it is not defined *)
Definition either (a b : option macro) : option macro := match a with Some m => Some m | None => b end.
Definition settles (x : string) (ps : list string) (e : option macro) : Prop :=
  exists ls, part ps ls /\ bal ls /\
    forall st, pp_active st = true -> lookup x (pp_macros (runs st ls)) = either (lookup x (pp_macros st)) e.

Lemma active_stack : forall a b, pp_stack a = pp_stack b -> pp_active a = pp_active b.
Proof. intros a b E. unfold pp_active. now rewrite E. Qed.
Lemma settles_app : forall x a ea b eb, settles x a ea -> settles x b eb -> settles x (a ++ b) (either ea eb).
Proof.
  intros x a ea b eb (la & PA & BA & SA) (lb & PB & BB & SB). exists (la ++ lb)%list. split; [now apply part_app|]. split; [now apply bal_app|].
  intros st A. rewrite runs_app, SB, SA by (try exact A; now rewrite (active_stack _ st (BA st))).
  unfold either. now destruct (lookup x (pp_macros st)), ea.
Qed.
Lemma settles_nil : forall x, settles x [] None.
Proof. intros x. exists []. split; [apply part_nil|]. split; [apply bal_nil|]. intros st _. cbn. now destruct (lookup x (pp_macros st)). Qed.
Lemma settles_other : forall x ps ns, bpart ps -> dpart ps ns -> ~ In x ns -> settles x ps None.
Proof.
  intros x ps ns (ls & P & B) (ls' & P' & <-) N. rewrite <- (part_lines _ _ P'), (part_lines _ _ P) in N.
  exists ls. split; [exact P|]. split; [exact B|]. intros st _. rewrite runs_keep by exact N. now destruct (lookup x (pp_macros st)).
Qed.
Lemma lookup_app : forall (a b : list (string * macro)) x, lookup x (a ++ b) = either (lookup x a) (lookup x b).
Proof. induction a as [|[y m] a IH]; intros b x; [reflexivity|]. cbn [List.app lookup]. destruct (String.eqb x y); [reflexivity|apply IH]. Qed.

(** the macro of an entry *)
Definition entry_macro (v : Z) : macro := {| m_params := None; m_body := lex (" (" ++ decZ (swrap 32 v) ++ ")") |}.
Definition sig_entries (m : message) (sg : signal) : list (string * macro) :=
  map (fun p => ((s_name sg ++ "_" ++ g_name m ++ "_" ++ fst p)%string, entry_macro (snd p))) (s_valdefs sg).
Definition msg_entries (m : message) : list (string * macro) :=
  if g_notempty m then flat_map (sig_entries m) (g_sigs m) else [].

Lemma entry_settles : forall x m sg p, msg_ok m -> sig_ok (g_dlc m) sg -> header_sig_ok sg -> In p (s_valdefs sg) ->
  settles x (table_pieces m sg p) (lookup x [((s_name sg ++ "_" ++ g_name m ++ "_" ++ fst p)%string, entry_macro (snd p))]).
Proof.
  intros x m sg p MO SO HO I. destruct (table_part m sg p MO SO HO I) as [P B]. exists (table_lines m sg p). split; [exact P|]. split; [exact B|].
  intros st A. destruct p as [t v]. destruct (hs_table sg HO t v I) as [T1 T2]. cbn [fst snd] in *.
  assert (ID : is_ident (table_name m sg t) = true) by (apply table_ident; [apply (ok_name _ _ SO)|apply (mo_name _ MO)|exact T1]).
  change (s_name sg ++ "_" ++ g_name m ++ "_" ++ t) with (table_name m sg t). cbn [lookup].
  destruct (String.eqb_spec x (table_name m sg t)) as [->|N].
  2: { destruct (table_dp m sg (t, v) MO SO HO I) as (ls & PL & EL). rewrite <- (part_lines _ _ PL), (part_lines _ _ P) in EL.
       rewrite runs_keep; [now destruct (lookup x (pp_macros st))|]. rewrite EL. cbn [fst].
       change (s_name sg ++ "_" ++ g_name m ++ "_" ++ t) with (table_name m sg t). intros [X|[]]. congruence. }
  unfold table_lines. cbn [fst snd]. set (y := table_name m sg t) in *.
  change (runs st [?a; ?b; ?c]) with (pp_line (pp_line (pp_line st a) b) c).
  assert (PD : pp_define (y ++ " (" ++ decZ (swrap 32 v) ++ ")") = (y, entry_macro v)).
  { unfold pp_define. rewrite span_ident; [reflexivity|now apply ident_chars|reflexivity]. }
  assert (S1 : pp_line st ("#ifndef " ++ y) = pp_push (negb (defined y (pp_macros st))) st).
  { unfold pp_line. rewrite directive_ifndef by auto. cbn.
    unfold pp_name. rewrite <- (app_nil_r y) at 1. rewrite span_ident by (try exact Logic.I; now apply ident_chars). reflexivity. }
  rewrite S1. unfold defined. destruct (lookup y (pp_macros st)) as [mc|] eqn:LK; cbn [negb].
  - set (s1 := pp_push false st). assert (S2 : pp_macros (pp_line s1 ("#define " ++ y ++ " (" ++ decZ (swrap 32 v) ++ ")")) = pp_macros st).
    { unfold pp_line. rewrite directive_define by now apply ident_head. cbn. reflexivity. }
    unfold pp_line at 1. change (directive "#endif") with (Some ("endif", "")). cbn [String.eqb]. cbn [either].
    change (lookup y (pp_macros (pp_line s1 ("#define " ++ y ++ " (" ++ decZ (swrap 32 v) ++ ")"))) = Some mc).
    now rewrite S2.
  - set (s1 := pp_push true st).
    assert (S2 : pp_macros (pp_line s1 ("#define " ++ y ++ " (" ++ decZ (swrap 32 v) ++ ")")) = (y, entry_macro v) :: pp_macros st).
    { unfold pp_line. rewrite directive_define by now apply ident_head. unfold s1, pp_push. cbn [pp_active pp_stack].
      assert (X : pp_active {| pp_macros := pp_macros st; pp_stack := true :: pp_stack st; pp_out := pp_out st |} = true).
      { unfold pp_active in *. cbn [pp_stack forallb]. now rewrite A. }
      cbn [String.eqb]. rewrite PD. change (String.eqb "define" ?z) with (String.eqb "define" z).
      cbn. unfold pp_active in X. cbn in X. rewrite X. reflexivity. }
    change (lookup y (pp_macros (pp_line s1 ("#define " ++ y ++ " (" ++ decZ (swrap 32 v) ++ ")"))) = either None (Some (entry_macro v))).
    rewrite S2. cbn [lookup either]. now rewrite String.eqb_refl.
Qed.

Lemma vt_settles : forall x m sg, msg_ok m -> sig_ok (g_dlc m) sg -> header_sig_ok sg ->
  settles x (value_table m sg) (lookup x (sig_entries m sg)).
Proof.
  intros x m sg MO SO HO. unfold value_table, sig_entries.
  assert (P : forall l, (forall p, In p l -> In p (s_valdefs sg)) ->
    settles x (List.concat (map (fun p =>
         let defname := str_print (s_name sg ++ "_" ++ g_name m ++ "_" ++ fst p) in
         [L ("#ifndef " ++ defname);
          L ("#define " ++ s_name sg ++ "_" ++ g_name m ++ "_" ++ fst p ++ " ("
               ++ decZ (swrap 32 (snd p)) ++ ")");
          L "#endif"; nls 1]) l))
      (lookup x (map (fun p => ((s_name sg ++ "_" ++ g_name m ++ "_" ++ fst p)%string, entry_macro (snd p))) l))).
  { induction l as [|p l IH]; intros S; [apply settles_nil|]. cbn [map List.concat]. cbv zeta.
    match goal with |- settles x (?a ++ ?b) _ => change a with (table_pieces m sg p ++ [nls 1])%list end.
    match goal with |- settles x _ (lookup x (?h :: ?t)) => change (h :: t) with ([h] ++ t)%list end. rewrite lookup_app.
    apply settles_app; [|apply IH; intros q I; apply S; now right].
    match goal with |- settles x _ ?e => replace e with (either e None) by (now destruct e) end.
    apply settles_app; [apply entry_settles; auto; apply S; now left|].
    apply (settles_other x _ []); [apply bp_nls|apply dp_nls|auto]. }
  specialize (P (s_valdefs sg) (fun p I => I)).
  destruct (s_valdefs sg) as [|q0 qs] eqn:EV; [apply settles_nil|]. rewrite <- EV in *. clear EV.
  pose proof (no_nl_ident' _ (ok_name _ _ SO)) as N2. pose proof (ok_name_len _ _ SO) as L2.
  match goal with |- settles x (?a :: ?b :: ?r) _ => change (a :: b :: r)%list with ([a; b] ++ r)%list end.
  apply (settles_app x _ None); [|exact P].
  assert (PP : part [L (nl ++ "// Value tables for @" ++ s_name sg ++ " signal")] [""; ("// Value tables for @" ++ s_name sg ++ " signal")%string]).
  { set (s := ("// Value tables for @" ++ s_name sg ++ " signal")%string). rewrite <- (lines_L2 "" s).
    - apply part_full, L_full.
    - reflexivity.
    - unfold s. nonls.
    - discriminate.
    - unfold s. rewrite !app_len. cbn [String.length]. lia. }
  apply (settles_other x _ []); [| |auto].
  - apply bpart_cons; [|apply bp_nls]. eexists. split; [exact PP|]. apply bal_plains. repeat constructor.
  - apply dp_cons0; [|apply dp_nls]. eexists. split; [exact PP|reflexivity].
Qed.

Lemma macros_settles : forall x g m sgs passed passed' t, gen_ok g -> msg_ok m -> (forall sg, In sg sgs -> In sg (g_sigs m)) ->
  (forall sg, In sg sgs -> header_sig_ok sg) -> sig_macros g m passed sgs = Ok (passed', t) ->
  (forall sg, In sg sgs -> s_simple sg = false -> ~ In x (conv_names (n_DRV g) (s_name sg))) ->
  settles x t (lookup x (flat_map (sig_entries m) sgs)).
Proof.
  intros x g m sgs. induction sgs as [|sg r IH]; intros passed passed' t GO MO SS HO E NC.
  - injection E as <- <-. apply settles_nil.
  - cbn [sig_macros] in E.
    pose proof (mo_sigs m MO sg (SS sg (or_introl eq_refl))) as SO. pose proof (HO sg (or_introl eq_refl)) as HS.
    destruct (go_len g GO) as (_ & _ & _ & _ & G5 & _).
    set (first := if s_simple sg || smem (s_name sg) passed then _ else _) in E.
    assert (exists p1 t1, first = Ok (p1, t1) /\ settles x t1 None) as (p1 & t1 & EF & F2).
    { subst first. destruct (s_simple sg) eqn:SI; cbn [orb] in *; [exists passed, []; auto using settles_nil|].
      destruct (smem (s_name sg) passed) eqn:SM; [exists passed, []; auto using settles_nil|].
      destruct (print_physical_to_raw sg (n_DRV g)) as [tx| |] eqn:EP; cbn [bind] in E; try discriminate.
      destruct (ptr_part sg (n_DRV g) tx EP (no_nl_ident' _ (go_DRV g GO)) (no_nl_ident' _ (ok_name _ _ SO)) G5 (ok_name_len _ _ SO)
                 (proj1 (hs_nums _ HS)) (proj2 (hs_nums _ HS))) as (a & b & c & C1 & C2).
      assert (C3 : part [append_s tx] (conv_lines (n_DRV g) sg (a, b, c))) by exact C2.
      exists (s_name sg :: passed), [append_s tx]. split; [reflexivity|].
      apply (settles_other x _ (conv_names (n_DRV g) (s_name sg))).
      - eexists. split; [exact C3|]. apply conv_bal, GO.
      - apply (conv_dp _ _ (a, b, c)); auto; [apply GO|apply SO].
      - apply NC; [now left|exact SI]. }
    rewrite EF in E. cbn [bind] in E.
    destruct (sig_macros g m p1 r) as [[p2 ts]| |] eqn:ER; cbn [bind] in E; try discriminate. injection E as <- <-.
    cbn [flat_map]. rewrite lookup_app.
    apply (settles_app x t1 None _ _ F2). apply settles_app; [now apply vt_settles|].
    apply (IH p1 p2 ts GO MO (fun q I => SS q (or_intror I)) (fun q I => HO q (or_intror I)) ER). intros q I. apply NC. now right.
Qed.

Lemma struct_bp : forall g m fb fp, gen_ok g -> is_ident (n_usebits g) = true -> (String.length (n_usebits g) <= 1100)%nat -> hmsg_ok m ->
  bpart fb -> bpart fp -> bpart (struct_pieces g m fb fp).
Proof.
  intros g m fb fp GO UB LB HM BB BP. unfold struct_pieces.
  pose proof (no_nl_ident' _ (go_mon g GO)) as NM. pose proof (no_nl_ident' _ UB) as NB. destruct (go_len g GO) as (_ & G2 & _).
  pose proof (no_nl_ident' _ (mo_name m (hk_msg _ HM))) as N1. pose proof (mo_name_len m (hk_msg _ HM)) as L1.
  match goal with |- bpart (?a ++ ?b ++ ?c ++ ?d ++ ?e) =>
      replace (a ++ b ++ c ++ d ++ e)%list with
        ([nls 1; L "typedef struct"; L "{"] ++ (L ("#ifdef " ++ n_usebits g) :: (nls 1 :: fb) ++ L "#else" :: (nls 1 :: fp) ++ [L ("#endif // " ++ n_usebits g)])
          ++ [nls 1] ++ (L ("#ifdef " ++ n_usemon g) :: [nls 1; L "  FrameMonitor_t mon1;"; nls 1] ++ [L ("#endif // " ++ n_usemon g)])
          ++ [nls 1; L ("} " ++ g_name m ++ "_t;"); nls 1])%list end.
    2: { cbn [List.app]. rewrite <- !List.app_assoc. cbn [List.app]. do 5 f_equal. rewrite <- !List.app_assoc. reflexivity. }
    apply bpart_app; [apply bpart_cons; [apply bp_nls|apply bpart_cons; [lit|lit]]|].
    apply bpart_app.
    { apply bp_if_else; [raw|raw| |apply opens_ifdef; auto|reflexivity|apply endif_tail| |].
      - apply raw_intro; [reflexivity|cbn; lia].
      - apply bpart_cons; auto using bp_nls.
      - apply bpart_cons; auto using bp_nls. }
    apply bpart_app; [apply bp_nls|]. apply bpart_app.
    { apply bp_if; [raw|raw|apply opens_ifdef, GO|apply endif_tail|].
      apply bpart_cons; [apply bp_nls|apply bpart_cons; [lit|apply bp_nls]]. }
    apply bpart_cons; [apply bp_nls|]. apply bpart_cons; [|apply bp_nls]. apply bp_plain; [raw|reflexivity].
Qed.

Lemma msg_settles : forall x g m passed passed' t, src_ok g "" -> is_ident (n_usebits g) = true ->
  (String.length (n_usebits g) <= 1100)%nat -> hmsg_ok m -> msg_header g passed m = Ok (passed', t) ->
  ~ In x (id_names m) -> (forall y, In y (scaled m) -> ~ In x (conv_names (n_DRV g) y)) ->
  settles x t (lookup x (msg_entries m)).
Proof.
  intros x g m passed passed' t SG UB LB HM E NI NC. pose proof (so_gen _ _ SG) as GO.
  assert (C : settles x (msg_consts m) None).
  { apply (settles_other x _ (id_names m)); [apply consts_top, HM|apply consts_dp, HM|exact NI]. }
  unfold msg_header, scaled, msg_entries in *. destruct (g_notempty m) eqn:NE; cbn [negb] in E.
  2: { apply Ok_inj in E; apply pair_equal_spec in E; destruct E as [<- <-]. apply (settles_app x _ None _ None); [exact C|].
       apply (settles_other x _ []); [apply bp_nls|apply dp_nls|auto]. }
  destruct (sig_macros g m passed (g_sigs m)) as [[p2 ms]| |] eqn:EM; cbn [bind] in E; try discriminate.
  assert (M : settles x ms (lookup x (flat_map (sig_entries m) (g_sigs m)))).
  { apply (macros_settles x g m (g_sigs m) passed p2 ms GO (hk_msg _ HM) (fun sg I => I) (hk_sigs _ HM) EM).
    intros sg I S. apply NC. apply in_map. apply filter_In. split; [exact I|]. now rewrite S. }
  destruct (struct_fields g m true _) as [fb| |] eqn:EB; cbn [bind] in E; try discriminate.
  destruct (struct_fields g m false _) as [fp| |] eqn:EP; cbn [bind] in E; try discriminate. apply Ok_inj in E; apply pair_equal_spec in E; destruct E as [<- <-].
  apply (settles_app x _ None); [exact C|].
  match goal with |- settles x _ ?e => replace e with (either e None) by (now destruct e) end.
  apply settles_app; [exact M|].
  apply (settles_other x _ []); [apply (struct_bp g m fb fp)|apply (struct_dp g m fb fp)|auto]; auto; try (eapply fields_bp; eauto); eapply fields_dp; eauto.
Qed.

Lemma headers_settles : forall x g xs passed t, head_ok g -> (forall y, In y xs -> hmsg_ok (x_msg y)) -> msg_headers g passed xs = Ok t ->
  (forall y, In y xs -> ~ In x (id_names (x_msg y)) /\ forall z, In z (scaled (x_msg y)) -> ~ In x (conv_names (n_DRV g) z)) ->
  settles x t (lookup x (flat_map msg_entries (map x_msg xs))).
Proof.
  intros x g. induction xs as [|y r IH]; intros passed t HD OK E N.
  - injection E as <-. apply settles_nil.
  - cbn [msg_headers] in E. destruct (msg_header g passed (x_msg y)) as [[p1 t1]| |] eqn:EH; cbn [bind] in E; try discriminate.
    destruct (msg_headers g p1 r) as [ts| |] eqn:ER; cbn [bind] in E; try discriminate. apply Ok_inj in E. subst t.
    cbn [map flat_map]. rewrite lookup_app. destruct (N y (or_introl eq_refl)) as [N1 N2].
    apply settles_app.
    + apply (msg_settles x g (x_msg y) passed p1 t1 (hd_src _ HD) (proj1 (hd_bits _ HD)) (proj2 (hd_bits _ HD)) (OK y (or_introl eq_refl)) EH N1 N2).
    + apply (IH p1 ts HD (fun z I => OK z (or_intror I)) ER). intros z I. apply N. now right.
Qed.

Theorem driver_entries : forall drv g d h c, driver drv g d h c -> header_ok d ->
  exists ms, Permutation ms (d_msgs d) /\ forall conf x, ~ In x (fixed_names (str_toupper drv) d) ->
    lookup x (after_header conf h) = either (lookup x conf) (lookup x (flat_map msg_entries ms)).
Proof.
  intros drv g d h c DR HO. destruct (driver_DRV _ _ _ _ _ DR) as (DD & VH & VL). destruct DR as [RUN [DI DL] MS ND].
  destruct RUN as (srt & out & date & dbc & hi & low & nc & ni & nf & rest & SR & DT & DB & HI & LO & G & GM).
  set (s := configure drv out (common_info date) (driver_info dbc) hi low nc ni nf) in *.
  assert (EO : forall m, In m (d_msgs d) -> emit_ok m).
  { intros m I. destruct (MS m I) as (A & B & C). constructor; auto. now apply short_few. }
  destruct (map_res_loaded (d_msgs d)) as (xs0 & LM & F0).
  { intros m I. split; apply (EO m I). }
  unfold generate_main in GM. rewrite load_messages_map, LM in GM. cbn [bind] in GM.
  set (xs := srt ciexpr (fun x => g_id (x_msg x)) xs0) in *.
  assert (PX : Permutation xs xs0) by apply SR.
  destruct (loaded_self _ _ F0) as [FS EM].
  assert (PM : Permutation (map x_msg xs) (d_msgs d)) by (rewrite EM; now apply Permutation_map).
  assert (HK : forall x, In x xs -> hmsg_ok (x_msg x)).
  { intros x I. assert (IM : In (x_msg x) (d_msgs d)) by (eapply Permutation_in; [exact PM|now apply in_map]).
    constructor; [apply (MS _ IM)|]. intros sg S. eapply ho_sigs; eauto. }
  pose proof (configure_head drv out date dbc hi low nc ni nf DI DL DT DB HI LO) as HD. fold s in HD.
  rewrite <- G in *.
  destruct (main_header g (d_maxdlc d) xs) as [hd| |] eqn:EH; cbn [bind] in GM; try discriminate.
  destruct (main_source g (f_coreh (st_f s)) xs) as [sc| |]; cbn [bind] in GM; try discriminate.
  cbn [List.app] in GM. injection GM as <- _ _.
  unfold main_header in EH. destruct (msg_headers g [] xs) as [t| |] eqn:ET; cbn [bind] in EH; try discriminate. apply Ok_inj in EH. subst hd.
  exists (map x_msg xs). split; [exact PM|]. intros conf x NX. rewrite <- DD in NX.
  assert (ST : settles x t (lookup x (flat_map msg_entries (map x_msg xs)))).
  { apply (headers_settles x g xs [] t HD HK ET). intros y I.
    assert (IM : In (x_msg y) (d_msgs d)) by (eapply Permutation_in; [exact PM|now apply in_map]). split.
    - intros J. apply NX. unfold fixed_names. apply in_app_iff. right. apply in_app_iff. left. apply in_flat_map. eauto.
    - intros z Z J. apply NX. unfold fixed_names. apply in_app_iff. right. apply in_app_iff. right. apply in_flat_map. exists z. split; [|exact J].
      apply nodup_In, in_flat_map. eauto. }
  destruct (head_top g (d_maxdlc d) HD ltac:(pose proof (ho_dlc d HO); lia)) as (T0 & _).
  pose proof (head_dp g (d_maxdlc d) HD ltac:(pose proof (ho_dlc d HO); lia)) as HT.
  assert (S0 : settles x (header_top g (d_maxdlc d)) None).
  { apply (settles_other x _ _ T0 HT). rewrite VH, VL, <- DD. intros I. apply NX. unfold fixed_names. apply in_app_iff. left. exact I. }
  assert (B : settles x ([L "// Function signatures"; nls 1] ++ List.concat (map (fun x => msg_prototypes g (x_msg x)) xs) ++ [L cpp_close]) None).
  { apply (settles_other x _ []); [| |auto].
    - apply bpart_app; [apply bpart_cons; [lit|apply bp_nls]|]. apply bpart_app; [|apply cpp_bp].
      apply bpart_concat. apply Forall_map. apply Forall_forall. intros y I. apply protos_bp; [apply HD|apply HK; auto].
    - apply dp_app0; [apply dp_cons0; [dlit|apply dp_nls]|]. apply dp_app0; [|apply dp_cpp].
      apply dp_concat0. apply Forall_map. apply Forall_forall. intros y I. apply protos_dp; [apply HD|apply HK; auto]. }
  destruct (settles_app _ _ _ _ _ S0 (settles_app _ _ _ _ _ ST B)) as (ls & P & _ & Q).
  unfold after_header, pp_run. rewrite (part_lines _ _ P).
  change (fold_left pp_line ls ?s) with (runs s ls). rewrite Q by reflexivity. cbn [pp_macros either].
  destruct (lookup x conf); [reflexivity|]. cbn [either]. now destruct (lookup x (flat_map msg_entries (map x_msg xs))).
Qed.

Lemma first_entry : forall ms m sg t v x, In m ms -> g_notempty m = true -> In sg (g_sigs m) -> In (t, v) (s_valdefs sg) ->
  x = s_name sg ++ "_" ++ g_name m ++ "_" ++ t ->
  exists m' sg' t' v', In m' ms /\ In sg' (g_sigs m') /\ In (t', v') (s_valdefs sg') /\ s_name sg' ++ "_" ++ g_name m' ++ "_" ++ t' = x /\
    g_notempty m' = true /\ lookup x (flat_map msg_entries ms) = Some (entry_macro v').
Proof.
  intros ms m sg t v x IM NE IS IV X.
  assert (J : In (x, entry_macro v) (flat_map msg_entries ms)).
  { apply in_flat_map. exists m. split; [exact IM|]. unfold msg_entries. rewrite NE. apply in_flat_map. exists sg. split; [exact IS|].
    unfold sig_entries. apply in_map_iff. exists (t, v). cbn [fst snd]. split; [now rewrite X|exact IV]. }
  assert (K : exists mc, lookup x (flat_map msg_entries ms) = Some mc /\ In (x, mc) (flat_map msg_entries ms)).
  { induction (flat_map msg_entries ms) as [|[y mc] l IH]; [contradiction|]. cbn [lookup]. destruct (String.eqb_spec x y) as [->|N].
    - exists mc. split; [reflexivity|now left].
    - destruct J as [J|J]; [congruence|]. destruct (IH J) as (mc' & A & B). exists mc'. split; [exact A|now right]. }
  destruct K as (mc & A & B). apply in_flat_map in B. destruct B as (m' & I1 & B). unfold msg_entries in B.
  destruct (g_notempty m') eqn:NE'; [|contradiction]. apply in_flat_map in B. destruct B as (sg' & I2 & B). unfold sig_entries in B.
  apply in_map_iff in B. destruct B as ([t' v'] & E & I3). cbn [fst snd] in E. apply pair_equal_spec in E. destruct E as [E1 E2].
  exists m', sg', t', v'. repeat split; auto. rewrite A. now rewrite <- E2.
Qed.

(** an entry's macro is the constant of the entry, or of another entry with that name *)
Lemma entry_int : forall M x v, is_ident x = true -> lookup x M = Some (entry_macro v) -> int_macro M x (swrap 32 v).
Proof.
  intros M x v I E. pose proof (swrap_in v) as SW. destruct (define_signed x (swrap 32 v) I ltac:(lia)) as (_ & b & e & B1 & B2 & B3).
  assert (PD : pp_define (x ++ " (" ++ decZ (swrap 32 v) ++ ")") = (x, entry_macro v)).
  { unfold pp_define. rewrite span_ident; [reflexivity|now apply ident_chars|reflexivity]. }
  rewrite PD in B1. cbn [snd] in B1. exists b, e. rewrite E, B1. auto.
Qed.

Lemma entries_macros : forall ms x, lookup x (flat_map msg_entries ms) = option_map entry_macro (first_value x ms).
Proof.
  intros ms x. unfold first_value.
  assert (E : flat_map msg_entries ms = map (fun p => (fst p, entry_macro (snd p))) (flat_map entries ms)).
  { induction ms as [|m ms IH]; [reflexivity|]. cbn [flat_map]. rewrite map_app, IH. f_equal. unfold msg_entries, entries.
    destruct (g_notempty m); [|reflexivity]. clear IH. induction (g_sigs m) as [|sg l IH]; [reflexivity|]. cbn [flat_map]. rewrite map_app, IH. f_equal.
    unfold sig_entries. now rewrite map_map. }
  rewrite E. clear E. induction (flat_map entries ms) as [|[y v] l IH]; [reflexivity|]. cbn [map lookup find fst snd].
  rewrite String.eqb_sym. destruct (String.eqb y x); [reflexivity|exact IH].
Qed.

Theorem driver_first : forall drv g d h c conf, driver drv g d h c -> header_ok d ->
  exists ms, Permutation ms (d_msgs d) /\ forall x, In x (flat_map entry_names (d_msgs d)) -> ~ In x (fixed_names (str_toupper drv) d) ->
    lookup x conf = None -> exists v, first_value x ms = Some v /\ int_macro (after_header conf h) x (swrap 32 v).
Proof.
  intros drv g d h c conf DR HO. destruct (driver_entries _ _ _ _ _ DR HO) as (ms & PM & H). exists ms. split; [exact PM|].
  intros x I N LK. specialize (H conf x N). rewrite LK in H. cbn [either] in H. rewrite entries_macros in H.
  apply in_flat_map in I. destruct I as (m & IM & I). unfold entry_names in I. destruct (g_notempty m) eqn:NE; [|contradiction].
  apply in_flat_map in I. destruct I as (sg & IS & I). apply in_map_iff in I. destruct I as ([t v] & X & IV). cbn [fst] in X.
  assert (IMS : In m ms) by (eapply Permutation_in; [apply Permutation_sym; exact PM|exact IM]).
  destruct (first_entry ms m sg t v x IMS NE IS IV (eq_sym X)) as (m' & sg' & t' & v' & _ & _ & _ & _ & _ & E). rewrite entries_macros in E.
  destruct (first_value x ms) as [w|]; [|discriminate]. exists w. split; [reflexivity|].
  apply entry_int; [|exact H]. rewrite <- X. assert (MO : msg_ok m) by (apply (dr_msgs _ _ _ _ _ DR _ IM)).
  apply table_ident; [apply (ok_name _ _ (mo_sigs _ MO sg IS))|apply MO|].
  apply (hs_table _ (ho_sigs _ HO _ _ IM IS) _ _ IV).
Qed.
