(** The files of a run, found by their path. *)

From Coq Require Import ZArith NArith List String Ascii Bool Lia ZifyBool Permutation.
From Verif Require Import Base Dbl CSyntax CSem CRun Types Formatter SigPrinter Writer Settings StaticText MainGen App CodecSpec MsgSpec
  LexLemmas ScanLemmas PPProof BodyLemmas UnpackBody UnpackFun PackProof SourceFun DriverSpec DriverProof HeaderProof StructSpec GuardSpec GuardUtil BadLayout FilesSpec FilesProof.
Import ListNotations.
Open Scope string_scope.

Lemma prefix_inj : forall p a b : string, p ++ a = p ++ b -> a = b.
Proof. induction p; intros a' b' E; [exact E|]. cbn [String.append] in E. injection E as E. now apply IHp. Qed.

Lemma loaded_msgs : forall ms xs, map_res load_message ms = Ok xs -> map x_msg xs = ms.
Proof.
  induction ms as [|m ms IH]; intros xs E; cbn [map_res] in E; [apply Ok_inj in E; now subst|].
  destruct (load_message m) as [x| |] eqn:LX; cbn [bind] in E; try discriminate. destruct (map_res load_message ms) as [ys| |]; cbn [bind] in E; try discriminate.
  apply Ok_inj in E. subst xs. cbn [map]. rewrite (IH ys eq_refl). f_equal. now apply load_message_exprs.
Qed.

Record run_facts (drv : string) (d : dbclist) (s : settings) (fs : list (string * string)) (xs : list ciexpr) : Prop := {
  rf_perm : Permutation (map x_msg xs) (d_msgs d);
  rf_ok : exists ci di, files_ok (st_g s) ci di;
  rf_g : n_drv (st_g s) = str_tolower drv /\ n_DRV (st_g s) = str_toupper drv;
  rf_names : forall nm, In nm (map (fun x => g_name (x_msg x)) xs) -> is_ident nm = true /\ (String.length nm <= 1000)%nat;
  rf_fmonh : forall t, In (f_fmonh_path (st_f s), t) fs <-> t = sconcat (fmon_header (st_g s) xs);
  rf_fmonc : forall t, In (f_fmonc_path (st_f s), t) fs <-> n_nofmon (st_g s) = false /\ t = sconcat (fmon_source (st_g s) (str_tolower drv ++ "-fmon.h") xs);
  rf_conf : forall t, In (f_confdir (st_f s) ++ "/" ++ str_tolower drv ++ "-config.h", t) fs <-> n_noconfig (st_g s) = false /\ t = sconcat (config_text (st_g s));
  rf_dbcconf : forall t, In (f_confdir (st_f s) ++ "/dbccodeconf.h", t) fs <-> n_noconfig (st_g s) = false /\ t = sconcat (dbccodeconf_text (st_g s));
  rf_monutil : forall t, In (f_incdir (st_f s) ++ "/canmonitorutil.h", t) fs <-> n_noinc (st_g s) = false /\ t = sconcat (canmonutil_text (st_g s))
}.

Ltac in_list H := repeat first [destruct H as [H|H] | contradiction].
Ltac path_clash E := apply pair_equal_spec in E as [E _]; rewrite ?app_assoc in E; repeat (apply prefix_inj in E); cbn [String.append] in E;
  first [discriminate E | repeat (injection E as E); apply prefix_inj in E; discriminate E].

Lemma path_lib : forall out a b : string, out ++ String "/" a = out ++ String "/" b -> a = b.
Proof. intros out a b E. apply prefix_inj in E. now injection E. Qed.
Lemma config_names : forall d : string, d ++ "-config.h" <> "dbccodeconf.h".
Proof. intros d E. apply (suffix_differs ".h" (d ++ "-confi") "dbccodecon" "g" "f"); [discriminate|]. rewrite app_assoc. exact E. Qed.

Lemma emitted_facts : forall drv d s fs, emitted drv d s fs -> exists xs, run_facts drv d s fs xs.
Proof.
  intros drv d s fs [RUN [DI DL] NMS]. destruct RUN as (srt & out & date & dbc & hi & low & nc & ni & nf & SR & DT & DB & HI & LO & G & GM).
  unfold generate_main in GM. rewrite load_messages_map in GM. destruct (map_res load_message (d_msgs d)) as [xs0| |] eqn:LM; cbn [bind] in GM; try discriminate.
  set (xs := srt ciexpr (fun x => g_id (x_msg x)) xs0) in *.
  assert (PX : Permutation xs xs0) by apply SR. pose proof (loaded_msgs _ _ LM) as EM.
  assert (PM : Permutation (map x_msg xs) (d_msgs d)) by (rewrite <- EM; now apply Permutation_map).
  destruct (main_header (st_g s) (d_maxdlc d) xs) as [hd| |] eqn:EH; cbn [bind] in GM; try discriminate.
  destruct (main_source (st_g s) (f_coreh (st_f s)) xs) as [sc| |] eqn:ES; cbn [bind] in GM; try discriminate.
  apply Ok_inj in GM. clear EH ES. exists xs.
  assert (FO : exists ci di, files_ok (st_g s) ci di) by (rewrite G; now apply configure_files).
  assert (PS : f_coreh_path (st_f s) = out ++ String "/" ("lib/" ++ str_tolower drv ++ ".h") /\ f_corec_path (st_f s) = out ++ String "/" ("lib/" ++ str_tolower drv ++ ".c") /\
               f_fmonh_path (st_f s) = out ++ String "/" ("lib/" ++ str_tolower drv ++ "-fmon.h") /\ f_fmonc_path (st_f s) = out ++ String "/" ("usr/" ++ str_tolower drv ++ "-fmon.c") /\
               f_confdir (st_f s) = out ++ "/conf" /\ f_incdir (st_f s) = out ++ "/inc" /\ n_drv (st_g s) = str_tolower drv /\ f_fmonh (st_f s) = str_tolower drv ++ "-fmon.h").
  { subst s. cbn [st_f st_g configure f_coreh_path f_corec_path f_fmonh_path f_fmonc_path f_confdir f_incdir n_drv f_fmonh]. rewrite !app_assoc. repeat split. }
  destruct PS as (P1 & P2 & P3 & P4 & P5 & P6 & P7 & P8). rewrite P1, P2, P3, P4, P5, P6, P7, P8 in GM. rewrite !app_assoc in GM. cbn [String.append] in GM.
  assert (Q : forall (p q : string) (t u : string), (out ++ String "/" p, t) = (out ++ String "/" q, u) -> p = q /\ t = u).
  { intros p q t u E. apply pair_equal_spec in E as [E1 E2]. split; [now apply path_lib in E1|exact E2]. }
  assert (C1 : forall x y : string, "lib/" ++ str_tolower drv ++ x = "lib/" ++ str_tolower drv ++ y -> x = y).
  { intros x y E. apply prefix_inj in E. now apply prefix_inj in E. }
  constructor.
  - exact PM.
  - exact FO.
  - rewrite G. split; reflexivity.
  - intros nm I. apply in_map_iff in I as (x & <- & I). apply NMS. eapply Permutation_in; [exact PM|]. now apply in_map.
  - intros t. rewrite P3, <- GM. rewrite !in_app_iff. split.
    + intros [[E|[E|[E|[]]]]|[E|[E|E]]].
      * apply Q in E as [E _]. apply C1 in E. discriminate.
      * apply Q in E as [E _]. apply C1 in E. discriminate.
      * apply Q in E as [_ E]. now symmetry.
      * destruct (n_nofmon _); [contradiction|]. destruct E as [E|[]]. apply Q in E as [E _]. discriminate.
      * destruct (n_noconfig _); [contradiction|]. destruct E as [E|[E|[]]]; apply Q in E as [E _]; discriminate.
      * destruct (n_noinc _); [contradiction|]. destruct E as [E|[]]. apply Q in E as [E _]. discriminate.
    + intros ->. left. right. right. now left.
  - intros t. rewrite P4, <- GM. rewrite !in_app_iff. split.
    + intros [[E|[E|[E|[]]]]|[E|[E|E]]].
      * apply Q in E as [E _]. discriminate.
      * apply Q in E as [E _]. discriminate.
      * apply Q in E as [E _]. discriminate.
      * destruct (n_nofmon _); [contradiction|]. destruct E as [E|[]]. apply Q in E as [_ E]. auto.
      * destruct (n_noconfig _); [contradiction|]. destruct E as [E|[E|[]]]; apply Q in E as [E _]; discriminate.
      * destruct (n_noinc _); [contradiction|]. destruct E as [E|[]]. apply Q in E as [E _]. discriminate.
    + intros [-> ->]. right. left. now left.
  - intros t. rewrite P5, app_assoc. cbn [String.append]. rewrite <- GM. rewrite !in_app_iff. split.
    + intros [[E|[E|[E|[]]]]|[E|[E|E]]].
      * apply Q in E as [E _]. discriminate.
      * apply Q in E as [E _]. discriminate.
      * apply Q in E as [E _]. discriminate.
      * destruct (n_nofmon _); [contradiction|]. destruct E as [E|[]]. apply Q in E as [E _]. discriminate.
      * destruct (n_noconfig _); [contradiction|]. destruct E as [E|[E|[]]]; apply Q in E as [E1 E]; [auto|].
        exfalso. apply (config_names (str_tolower drv)). now injection E1.
      * destruct (n_noinc _); [contradiction|]. destruct E as [E|[]]. apply Q in E as [E _]. discriminate.
    + intros [-> ->]. right. right. left. now left.
  - intros t. rewrite P5, app_assoc. cbn [String.append]. rewrite <- GM. rewrite !in_app_iff. split.
    + intros [[E|[E|[E|[]]]]|[E|[E|E]]].
      * apply Q in E as [E _]. discriminate.
      * apply Q in E as [E _]. discriminate.
      * apply Q in E as [E _]. discriminate.
      * destruct (n_nofmon _); [contradiction|]. destruct E as [E|[]]. apply Q in E as [E _]. discriminate.
      * destruct (n_noconfig _); [contradiction|]. destruct E as [E|[E|[]]]; apply Q in E as [E1 E]; [|auto].
        exfalso. apply (config_names (str_tolower drv)). now injection E1.
      * destruct (n_noinc _); [contradiction|]. destruct E as [E|[]]. apply Q in E as [E _]. discriminate.
    + intros [-> ->]. right. right. left. right. now left.
  - intros t. rewrite P6, app_assoc. cbn [String.append]. rewrite <- GM. rewrite !in_app_iff. split.
    + intros [[E|[E|[E|[]]]]|[E|[E|E]]].
      * apply Q in E as [E _]. discriminate.
      * apply Q in E as [E _]. discriminate.
      * apply Q in E as [E _]. discriminate.
      * destruct (n_nofmon _); [contradiction|]. destruct E as [E|[]]. apply Q in E as [E _]. discriminate.
      * destruct (n_noconfig _); [contradiction|]. destruct E as [E|[E|[]]]; apply Q in E as [E1 E]; discriminate.
      * destruct (n_noinc _); [contradiction|]. destruct E as [E|[]]. apply Q in E as [_ E]. auto.
    + intros [-> ->]. right. right. right. now left.
Qed.



Theorem monitor_header : forall drv d s fs, emitted drv d s fs ->
  exists t, (forall t', In (f_fmonh_path (st_f s), t') fs <-> t' = t) /\ forall M,
  (monitors_wanted drv M = true -> forall m, In m (d_msgs d) -> lookup (hook_name drv m) (macros_after M t) = Some (hook_macro (hook_fun drv M m))) /\
  (forall x, (monitors_wanted drv M = true -> forall m, In m (d_msgs d) -> x <> hook_name drv m) -> ~ ver_macro drv x -> lookup x (macros_after M t) = lookup x M) /\
  (lookup "__cplusplus" M = None -> exists l, Permutation l (hook_funs drv M d) /\ toks_of M t = flat_map (fun f => hook_head f ++ [TP PSemi])%list l).
Proof.
  intros drv d s fs EM. destruct (emitted_facts drv d s fs EM) as [xs RF]. destruct RF as [PM (ci & di & FO) [GD GU] NM FH _ _ _ _].
  exists (sconcat (fmon_header (st_g s) xs)). split; [exact FH|]. intros M.
  set (names := map (fun x => g_name (x_msg x)) xs) in *. set (g := st_g s) in *.
  pose proof (monh_becomes g ci di names FO NM xs eq_refl) as BC. apply uncomment_pieces in BC.
  rewrite (monh_text g ci di names FO NM) in BC.
  pose proof (pp_run_items M _ (monh_wf g ci di names FO NM)) as [R1 R2].
  assert (EMON : n_usemon g = str_toupper drv ++ "_USE_DIAG_MONITORS") by (rewrite <- GU; apply (fo_eqs _ _ _ FO)).
  assert (IN : forall m, In m (d_msgs d) <-> exists x, In x xs /\ m = x_msg x).
  { intros m. split; [intros I; apply (Permutation_in _ (Permutation_sym PM)) in I; apply in_map_iff in I as (x & <- & I); eauto|].
    intros (x & I & ->). eapply Permutation_in; [exact PM|]. now apply in_map. }
  assert (TG : forall m, target g (ver_defs g M) (g_name m) = hook_fun drv M m).
  { intros m. unfold target, hook_fun, mono_on. rewrite (ver_mono g ci di FO). unfold usemono, mono_fun, own_fun. rewrite GU, GD. reflexivity. }
  unfold macros_after, toks_of, source_toks. rewrite BC, R1, R2. fold (macs M (monh_items g (lines ci ++ lines di)%list names)). fold (toks M (monh_items g (lines ci ++ lines di)%list names)).
  rewrite monh_macs, (ver_mon g ci di FO), EMON. fold (monitors_wanted drv M). fold (hooks g names (ver_defs g M)). split; [|split].
  - intros -> m I. rewrite lookup_app. unfold hook_name. rewrite <- GD, (hooks_find g ci di names FO NM); [now rewrite TG|].
    apply IN in I as (x & I & ->). unfold names. apply in_map_iff. eauto.
  - intros x NH NV. assert (LV : lookup x (ver_defs g M) = lookup x M).
    { apply (ver_defined g ci di FO); rewrite GU; intros ->; apply NV; unfold ver_macro; auto. }
    destruct (monitors_wanted drv M); [|exact LV]. rewrite lookup_app, (hooks_other g ci di names FO NM); [exact LV|].
    intros nm I. apply in_map_iff in I as (y & <- & I). rewrite GD. apply (NH eq_refl (x_msg y)). apply IN. eauto.
  - intros C. exists (functions g names M). split.
    + unfold functions, hook_funs. rewrite EMON. fold (monitors_wanted drv M). unfold usemono. rewrite GU. fold (mono_on drv M).
      destruct (monitors_wanted drv M); [|constructor]. destruct (mono_on drv M); [unfold mono_fun; now rewrite GD|].
      unfold names. rewrite map_map. rewrite <- (map_map x_msg (fun m => own_fun g (g_name m))). unfold own_fun. rewrite GD. now apply Permutation_map.
    + apply (monh_toks g ci di names FO NM); [|exact C]. rewrite map_app, concat_app.
      destruct (blank_plain ci (proj2 (fo_com _ _ _ FO))) as [_ ->]. destruct (blank_plain di (proj2 (fo_drv _ _ _ FO))) as [_ ->]. reflexivity.
Qed.

Theorem monitor_source : forall drv d s fs t, emitted drv d s fs -> In (f_fmonc_path (st_f s), t) fs ->
  forall M, u_macros (compile M (uncomment t)) = M /\
  exists l, Permutation l (hook_funs drv M d) /\ Forall2 idle_fun l (u_funs (compile M (uncomment t))).
Proof.
  intros drv d s fs t EM IT M. destruct (emitted_facts drv d s fs EM) as [xs RF]. destruct RF as [PM (ci & di & FO) [GD GU] NM _ FC _ _ _].
  apply FC in IT as [_ ->]. set (names := map (fun x => g_name (x_msg x)) xs) in *. set (g := st_g s) in *.
  assert (EF : str_tolower drv ++ "-fmon.h" = n_drv g ++ "-fmon.h") by now rewrite GD.
  pose proof (monc_becomes g ci di names FO NM _ xs EF eq_refl) as BC. apply uncomment_pieces in BC.
  rewrite (monc_text g ci di names FO NM _ EF) in BC.
  pose proof (pp_run_items M _ (monc_wf g ci di names FO NM (str_tolower drv ++ "-fmon.h"))) as [R1 R2].
  assert (EMON : n_usemon g = str_toupper drv ++ "_USE_DIAG_MONITORS") by (rewrite <- GU; apply (fo_eqs _ _ _ FO)).
  destruct (monc_toks g names M (str_tolower drv ++ "-fmon.h") (lines ci ++ lines di)%list) as [T1 T2].
  { rewrite map_app, concat_app. destruct (blank_plain ci (proj2 (fo_com _ _ _ FO))) as [_ ->]. destruct (blank_plain di (proj2 (fo_drv _ _ _ FO))) as [_ ->]. reflexivity. }
  unfold compile. cbn [u_macros u_funs]. rewrite BC, R1. split; [exact T2|]. exists (functions g names M). split.
  - unfold functions, hook_funs. rewrite EMON. fold (monitors_wanted drv M). unfold usemono. rewrite GU. fold (mono_on drv M).
    destruct (monitors_wanted drv M); [|constructor]. destruct (mono_on drv M); [unfold mono_fun; now rewrite GD|].
    unfold names. rewrite map_map. rewrite <- (map_map x_msg (fun m => own_fun g (g_name m))). unfold own_fun. rewrite GD. now apply Permutation_map.
  - fold (pp_lines M (flat (monc_items g (str_tolower drv ++ "-fmon.h") (lines ci ++ lines di)%list names))). rewrite R2.
    fold (toks M (monc_items g (str_tolower drv ++ "-fmon.h") (lines ci ++ lines di)%list names)). rewrite T1.
    unfold fundefs. change fstart with (fs0 []). rewrite stubs_fold.
    + unfold fs0. cbn [fs_out]. rewrite List.app_nil_r, rev_involutive. generalize (functions g names M). induction l; constructor; [apply stub_idle|exact IHl].
    + apply Forall_forall. intros f I. unfold functions in I. destruct (defined (n_usemon g) M); [|contradiction]. destruct (fdrv _ _ _ FO) as [D _]. apply ident_chars in D.
      destruct (defined (usemono g) M).
      * destruct I as [<-|[]]. apply (ident_prefix "_FMon_MONO_"); [reflexivity|exact D].
      * apply in_map_iff in I as (nm & <- & I). destruct (NM nm I) as [A _]. apply ident_chars in A. apply (ident_prefix "_FMon_"); [reflexivity|]. rewrite !all_chars_app, A, D. reflexivity.
Qed.

Theorem monitor_includes : forall drv d s fs, emitted drv d s fs ->
  (forall t, In (f_fmonh_path (st_f s), t) fs -> In (str_tolower drv ++ "-config.h") (included (uncomment t)) /\ In "canmonitorutil.h" (included (uncomment t))) /\
  (forall t, In (f_fmonc_path (st_f s), t) fs -> In (str_tolower drv ++ "-fmon.h") (included (uncomment t))).
Proof.
  intros drv d s fs EM. destruct (emitted_facts drv d s fs EM) as [xs RF]. destruct RF as [PM (ci & di & FO) [GD GU] NM FH FC _ _ _].
  set (names := map (fun x => g_name (x_msg x)) xs) in *. set (g := st_g s) in *.
  destruct (fdrv _ _ _ FO) as [D _]. apply ident_chars in D. split.
  - intros t IT. apply FH in IT as ->. pose proof (monh_becomes g ci di names FO NM xs eq_refl) as BC. apply uncomment_pieces in BC.
    rewrite (monh_text g ci di names FO NM) in BC.
    split; apply included_line; try reflexivity.
    + rewrite BC, <- GD. unfold monh_items. repeat (rewrite flat_clist; cbn [flat]). rewrite in_app_iff. right. cbn [List.app In]. do 10 right. left. now rewrite !app_assoc.
    + rewrite <- GD, has_char_app, (no_quote _ D). reflexivity.
    + rewrite BC. unfold monh_items, monh_inner. repeat (rewrite flat_clist; cbn [flat]). rewrite in_app_iff. right. cbn [List.app In]. do 14 right. left. reflexivity.
  - intros t IT. apply FC in IT as [_ ->]. assert (EF : str_tolower drv ++ "-fmon.h" = n_drv g ++ "-fmon.h") by now rewrite GD.
    pose proof (monc_becomes g ci di names FO NM _ xs EF eq_refl) as BC. apply uncomment_pieces in BC.
    rewrite (monc_text g ci di names FO NM _ EF) in BC. apply included_line.
    + rewrite BC. unfold monc_items. rewrite flat_clist. cbn [flat]. rewrite in_app_iff. right. now left.
    + rewrite <- GD, has_char_app, (no_quote _ D). reflexivity.
Qed.

(** ** The calls in the core source *)

Lemma guard_keeps : forall x y v M, defined x M = true -> defined x (guard y v M) = true.
Proof.
  intros x y v M D. unfold guard. destruct (defined y M); [exact D|]. destruct (pp_define v) as [z a]. unfold defined in *. cbn [lookup]. destruct (String.eqb x z); auto.
Qed.
Lemma within_app_r : forall A (x a b : list A), within x b -> within x (a ++ b)%list.
Proof. intros A x a b (u & v & ->). exists (a ++ u)%list, v. now rewrite <- List.app_assoc. Qed.
Lemma within_app_l : forall A (x a b : list A), within x a -> within x (a ++ b)%list.
Proof. intros A x a b (u & v & ->). exists u, (v ++ b)%list. now rewrite <- !List.app_assoc. Qed.
Lemma within_self : forall A (x : list A), within x x.
Proof. intros A x. exists [], []. now rewrite List.app_nil_r. Qed.

Theorem unpack_calls : forall drv g d h c M m, driver drv g d h c -> In m (d_msgs d) -> g_notempty m = true -> monitors_wanted drv M = true ->
  exists fd, find_fun (unpack_name drv m) (u_funs (compile M c)) = Some fd /\ within (hook_call drv m) (fd_body fd).
Proof.
  intros drv g d h c M m DR IM NE MW. destruct (driver_unit drv g d h c M DR) as (ms & coreh & PM & SO & EO & EM & ND & CP).
  assert (GE : n_drv g = str_tolower drv /\ n_usemon g = str_toupper drv ++ "_USE_DIAG_MONITORS").
  { destruct (dr_run _ _ _ _ _ DR) as (srt & out & date & dbc & hi & low & nc & ni & nf & rest & _ & _ & _ & _ & _ & -> & _). destruct (dr_drv _ _ _ _ _ DR) as [DI DL].
    split; [reflexivity|]. assert (LU : String.length (str_toupper drv) = String.length drv) by apply len_map. unfold configure. cbn [st_g n_usemon].
    rewrite tmpb_short; [reflexivity|]. rewrite !app_len, ?LU. cbn [String.length]. lia. }
  destruct GE as [GD GM]. apply (Permutation_in _ (Permutation_sym PM)) in IM.
  destruct (msgs_find (with_defaults M) g m ms IM NE ND) as [F _].
  exists (un_def (with_defaults M) g m). split.
  - rewrite CP. cbn [u_funs]. unfold unpack_name. rewrite <- EO. unfold un_name in F. cbn [find_fun]. change (head_name (fd_head ext_def)) with (Some "__ext_sig__"). exact F.
  - cbn [un_def fd_body]. unfold un_items. rewrite toks_line. apply within_app_r. unfold unpack_items. rewrite toks_iapp. apply within_app_r.
    assert (MW' : defined (n_usemon g) (with_defaults M) = true) by (unfold with_defaults; repeat apply guard_keeps; rewrite GM; exact MW).
    rewrite (macs_nodef (with_defaults M) (sigs_items g (g_sigs m))) by apply sigs_nodef.
    unfold mon_items. rewrite toks_cond, MW'. cbn [xorb]. apply within_app_l. rewrite !toks_line. do 4 apply within_app_r. rewrite !toks_iapp. do 2 apply within_app_r. rewrite toks_line. apply within_app_l.
    pose proof (mo_name _ (eo_msg _ (EM m IM))) as IN. pose proof (go_drv g (so_gen _ _ SO)) as ID.
    pose proof (fmon_ident g m IN ID) as IF. pose proof (c_id_ident m IN) as II. unfold hook_call, hook_name. rewrite <- GD. fold (fmon_name g m) (c_id m).
    replace (lex _) with [TId (fmon_name g m); TP PLpar; TP (PBin OAnd); TId "_m"; TP PArrow; TId "mon1"; TP PComma; TId (c_id m); TP PRpar; TP PSemi]; [apply within_self|].
    set (f := fmon_name g m) in *. clearbody f. change "_CANID);" with ("_CANID" ++ ");"). rewrite c_id_fold.
    unfold lex. rewrite <- (app_nil_r (_ ++ _)) at 1. rewrite ?app_assoc. lexrun ltac:(rewrite lex_ident' by auto). reflexivity.
Qed.
