(** Texts without backslashes: joining lines changes nothing. *)

From Coq Require Import ZArith NArith List String Ascii Bool Lia.
From Coq Require Import Floats.SpecFloat.
From Verif Require Import Base Dbl CSyntax CSem CRun Types Formatter SigPrinter Writer Settings StaticText MainGen App
  CodecSpec MsgSpec LexLemmas PPProof UnpackBody SourceFun DriverSpec DriverProof HeaderSpec HeaderProof CodecEnv StructSpec.
From Coq Require Import Permutation.
Import ListNotations.
Open Scope string_scope.

Lemma splice_clean : forall s, clean s -> splice s = s.
Proof.
  induction s as [|c s IH]; intros H; [reflexivity|]. unfold clean in *. cbn [all_chars] in H. apply andb_true_iff in H. destruct H as [H1 H2].
  destruct s as [|d s]; [reflexivity|]. change (splice (String c (String d s))) with
    (if Ascii.eqb c "\" && Ascii.eqb d NL then splice s else String c (splice (String d s))).
  unfold not_backslash in H1. apply negb_true_iff in H1. rewrite H1. cbn [andb]. now rewrite (IH H2).
Qed.

Lemma clean_app : forall a b, clean a -> clean b -> clean (a ++ b).
Proof. intros a b A B. unfold clean in *. now rewrite all_chars_app, A, B. Qed.
Lemma clean_id : forall s, all_chars is_idchar s = true -> clean s.
Proof. intros s. apply all_chars_impl. intros c. destruct c as [[] [] [] [] [] [] [] []]; intros; auto; discriminate. Qed.
Lemma clean_ident : forall s, is_ident s = true -> clean s.
Proof. intros s H. apply clean_id. now apply ident_chars. Qed.
Lemma clean_sub : forall s i n, clean s -> clean (substring i n s).
Proof.
  unfold clean. induction s as [|c s IH]; intros i n H; [destruct i, n; reflexivity|].
  cbn [all_chars] in H. apply andb_true_iff in H. destruct H as [H1 H2].
  destruct i as [|i]; destruct n as [|n]; cbn [substring]; auto. cbn [all_chars]. rewrite H1. cbn. auto.
Qed.
Lemma clean_cut : forall n s, clean s -> clean (cut n s).
Proof. intros. now apply clean_sub. Qed.
Lemma clean_print : forall s, clean s -> clean (str_print s).
Proof. intros. now apply clean_cut. Qed.
Lemma clean_nl : clean nl.
Proof. reflexivity. Qed.
Lemma clean_append : forall s, clean s -> clean (append_s s).
Proof. intros s H. unfold append_s. destruct (last_char s); [|apply clean_nl]. destruct (Ascii.eqb _ NL); [auto|]. apply clean_app; auto. apply clean_nl. Qed.
Lemma clean_L : forall s, clean s -> clean (L s).
Proof. intros s H. apply clean_append. now apply clean_cut. Qed.
Lemma clean_text : forall s, clean s -> clean (text_f s).
Proof. intros s H. now apply clean_cut. Qed.
Lemma clean_repeat : forall n c, not_backslash c = true -> clean (repeat_char n c).
Proof. intros n c H. unfold clean. induction n; cbn; auto. now rewrite H. Qed.
Lemma clean_nls : forall n, clean (nls n).
Proof. intros n. now apply clean_repeat. Qed.
Lemma clean_dec : forall n, clean (dec n).
Proof. intros. apply clean_id, dec_idchars. Qed.
Lemma clean_decZ : forall z, clean (decZ z).
Proof. intros z. unfold decZ. destruct (z <? 0)%Z; [apply clean_app; [reflexivity|]|]; apply clean_dec. Qed.
Lemma clean_pu : forall z, clean (pu z).
Proof. intros. apply clean_dec. Qed.
Lemma clean_px : forall z, clean (px z).
Proof. intros z. unfold px. destruct (z =? 0)%Z; [reflexivity|]. apply clean_app; [reflexivity|]. apply clean_id, hex_idchars. Qed.
Lemma clean_pd2 : forall z, clean (pd2 z).
Proof. intros z. unfold pd2, pad_left. apply clean_app; [now apply clean_repeat|apply clean_decZ]. Qed.
Lemma clean_pd4l : forall z, clean (pd4l z).
Proof. intros z. unfold pd4l, pad_right. apply clean_app; [apply clean_decZ|now apply clean_repeat]. Qed.
Lemma clean_type : forall t, clean (print_type t).
Proof. destruct t; reflexivity. Qed.
Lemma clean_fixed : forall d, clean (fixed10 d).
Proof.
  assert (X : forall (s : bool) n, clean ((if s then "-" else "") ++ dec (n / 10 ^ 10) ++ "." ++ pad_left 10 "0" (dec (n mod 10 ^ 10)))).
  { intros s n. unfold pad_left. apply clean_app; [now destruct s|]. apply clean_app; [apply clean_dec|]. apply clean_app; [reflexivity|].
    apply clean_app; [now apply clean_repeat|apply clean_dec]. }
  intros [s|s| |s m e]; cbn [fixed10]; try apply X; now try destruct s.
Qed.
Lemma clean_prt : forall d k, clean (prt_double d k).
Proof.
  intros d k. pose proof (clean_fixed d) as F. unfold prt_double. destruct (index 0 "." (fixed10 d)).
  - cbv zeta. match goal with |- context [if ?b then _ else _] => destruct b end.
    + apply clean_app; [now apply clean_sub|reflexivity].
    + now apply clean_sub.
  - apply clean_app; [exact F|reflexivity].
Qed.
Lemma clean_indent : forall n s, clean s -> clean (indented_string n s).
Proof. intros n s H. unfold indented_string. destruct (n <=? String.length s)%nat; [auto|]. apply clean_app; [auto|now apply clean_repeat]. Qed.
Lemma clean_replace : forall t s, clean t -> clean s -> clean (replace_nl t s).
Proof.
  intros t s T. induction s as [|c s IH]; intros H; [reflexivity|]. unfold clean in H. cbn [all_chars] in H. apply andb_true_iff in H. destruct H as [H1 H2].
  specialize (IH H2). cbn [replace_nl]. destruct (Ascii.eqb c NL).
  - apply (clean_app (String NL "") (t ++ replace_nl t s)); [reflexivity|]. now apply clean_app.
  - apply (clean_app (String c "") (replace_nl t s)); [|exact IH]. unfold clean. cbn [all_chars]. now rewrite H1.
Qed.

Create HintDb clean.
#[export] Hint Resolve clean_app clean_print clean_append clean_L clean_text clean_nls clean_decZ clean_pu clean_px clean_pd2 clean_pd4l clean_type
  clean_prt clean_indent clean_replace clean_nl : clean.
#[export] Hint Extern 1 (clean (String _ _)) => reflexivity : clean.
#[export] Hint Extern 1 (clean EmptyString) => reflexivity : clean.
#[export] Hint Extern 1 (clean (if ?b then _ else _)) => destruct b : clean.
Ltac cl := auto 60 with clean.

Definition cleans (l : list string) : Prop := Forall clean l.
Lemma cleans_app : forall a b, cleans a -> cleans b -> cleans (a ++ b).
Proof. intros. now apply Forall_app. Qed.
Lemma cleans_concat : forall ls, (forall l, In l ls -> cleans l) -> cleans (List.concat ls).
Proof. induction ls as [|l ls IH]; intros H; [constructor|]. cbn [List.concat]. apply cleans_app; [apply H; now left|]. apply IH. intros x X. apply H. now right. Qed.
Ltac cls := repeat first [apply Forall_nil | apply Forall_cons | apply cleans_app]; cl.
Lemma sconcat_clean : forall ps, cleans ps -> clean (sconcat ps).
Proof. induction 1; [reflexivity|]. cbn [sconcat]. now apply clean_app. Qed.

Lemma text_clean_parts : forall sg, sig_text_clean sg -> clean (s_comment sg) /\ clean (s_valtext sg) /\ clean (s_unit sg).
Proof. intros sg H. exact H. Qed.

Lemma info_clean : forall sg c, info_comment sg = Ok c -> clean (s_unit sg) -> clean c.
Proof.
  intros sg c E U. unfold info_comment in E. cbv zeta in E.
  assert (X : forall o (w : string), clean w ->
    clean (if has_text (s_unit sg) then indented_string o w ++ str_print (" Unit:'" ++ s_unit sg ++ "'") else w)) by (intros o w W; cl).
  destruct (s_double sg).
  - destruct (deqb (s_offset sg) (S754_zero false)), (deqb (s_factor sg) (dbl_of_Z 1)); cbn [bind] in E; apply Ok_inj in E; subst c; apply X; cl.
  - destruct (s_simple sg); [cbn [bind] in E; apply Ok_inj in E; subst c; apply X; cl|].
    destruct (deqb (s_offset sg) (S754_zero false)).
    + cbn [bind] in E. destruct (deqb (s_factor sg) (dbl_of_Z 1)).
      * cbn [bind] in E; apply Ok_inj in E; subst c; apply X; cl.
      * destruct (cast_i32 (s_factor sg)); cbn [bind] in E; try discriminate. apply Ok_inj in E; subst c; apply X; cl.
    + destruct (cast_i32 (s_offset sg)); cbn [bind] in E; try discriminate. destruct (deqb (s_factor sg) (dbl_of_Z 1)).
      * cbn [bind] in E; apply Ok_inj in E; subst c; apply X; cl.
      * destruct (cast_i32 (s_factor sg)); cbn [bind] in E; try discriminate. apply Ok_inj in E; subst c; apply X; cl.
Qed.

Lemma field_clean : forall g bits w sg t, sig_struct_field g bits w sg = Ok t -> clean (n_usesigfloat g) -> clean (s_name sg) ->
  (s_simple sg = false -> clean (s_namefloat sg)) -> sig_text_clean sg -> cleans t.
Proof.
  intros g bits w sg t E G N NF (C1 & C2 & C3). unfold sig_struct_field in E.
  destruct (field_decl sg bits w) as [dc| |] eqn:ED; cbn [bind] in E; try discriminate.
  destruct (info_comment sg) as [inf| |] eqn:EI; cbn [bind] in E; try discriminate.
  apply Ok_inj in E. subst t. pose proof (info_clean _ _ EI C3) as CI.
  assert (CD : clean dc).
  { unfold field_decl in ED. cbv zeta in ED. destruct (_ <? _)%nat; [discriminate|]. apply Ok_inj in ED. subst dc.
    apply clean_app; [|apply clean_app; [now apply clean_repeat|cl]]. cl. }
  apply cleans_app; [destruct (has_text (s_comment sg)); cls|]. apply cleans_app; [destruct (has_text (s_valtext sg)); cls|].
  apply cleans_app; [destruct (s_mux sg); cls|]. apply cleans_app.
  - cls.
  - destruct (s_simple sg); [constructor|]. specialize (NF eq_refl). cls.
Qed.

Lemma Ok_pair : forall A B (a c : A) (b d : B), Ok (a, b) = Ok (c, d) -> a = c /\ b = d.
Proof. intros. split; congruence. Qed.
Lemma map_res_all : forall A B (f : A -> res B) (P : B -> Prop) l r, map_res f l = Ok r -> (forall a b, In a l -> f a = Ok b -> P b) -> forall b, In b r -> P b.
Proof.
  induction l as [|a l IH]; intros r E H; cbn [map_res] in E; [apply Ok_inj in E; subst r; contradiction|].
  destruct (f a) as [b0| |] eqn:EA; cbn [bind] in E; try discriminate. destruct (map_res f l) as [bs| |] eqn:EM; cbn [bind] in E; try discriminate.
  apply Ok_inj in E. subst r. intros b [<-|I]; [eapply H; [now left|exact EA]|]. eapply IH; eauto. intros x y X Y. eapply H; [right; exact X|exact Y].
Qed.

Lemma fields_clean : forall g m bits w t, struct_fields g m bits w = Ok t -> gen_ok g -> hmsg_ok m -> msg_text_clean m -> cleans t.
Proof.
  intros g m bits w t E G M (_ & T). unfold struct_fields in E.
  pose proof (clean_ident _ (go_sigfloat _ G)) as GS. pose proof (clean_ident _ (go_roll _ G)) as GR.
  destruct (map_res _ _) as [fs| |] eqn:EF; cbn [bind] in E; try discriminate.
  assert (CF : cleans (List.concat fs)).
  { apply cleans_concat. intros l I. revert l I. apply (map_res_all _ _ _ _ _ _ EF). intros sg b I X.
    pose proof (mo_sigs _ (hk_msg _ M) sg I) as OK.
    eapply field_clean; eauto; [apply clean_ident, OK|]. intros S. apply clean_ident. apply (ok_phys _ _ OK S). }
  destruct (roll_sig m) as [rs|] eqn:R; cbn [bind] in E.
  - destruct (sig_struct_field g bits w (expt_sig rs)) as [f| |] eqn:EX; cbn [bind] in E; try discriminate. apply Ok_inj in E. subst t.
    pose proof (roll_in _ _ R) as I. pose proof (mo_sigs _ (hk_msg _ M) rs I) as OK.
    apply cleans_app; [exact CF|]. apply cleans_app; [cls|]. apply cleans_app; [|cls].
    eapply field_clean; eauto; cbn [expt_sig s_name s_namefloat s_simple].
    + apply clean_app; [apply clean_ident, OK|reflexivity].
    + intros S. apply clean_ident. apply (ok_phys _ _ OK S).
    + destruct (T rs I) as (A & B & C). split; [reflexivity|]. split; assumption.
  - apply Ok_inj in E. subst t. rewrite List.app_nil_r. exact CF.
Qed.

Lemma macro_clean : forall sg d t, print_physical_to_raw sg d = Ok t -> clean (s_name sg) -> clean d -> clean t.
Proof.
  intros sg d t E N D. unfold print_physical_to_raw in E. cbv zeta in E.
  destruct (s_double sg); [apply Ok_inj in E; subst t; cl|].
  destruct (cast_i32 (s_factor sg)); cbn [bind] in E; try discriminate.
  destruct (deqb (s_offset sg) _); [apply Ok_inj in E; subst t; cl|].
  destruct (cast_i32 (s_offset sg)); cbn [bind] in E; try discriminate.
  destruct (deqb (s_factor sg) _); apply Ok_inj in E; subst t; cl.
Qed.
Lemma table_clean : forall m sg, clean (g_name m) -> clean (s_name sg) -> header_sig_ok sg -> cleans (value_table m sg).
Proof.
  intros m sg G N H. unfold value_table. assert (X : forall p, In p (s_valdefs sg) -> clean (fst p)).
  { intros [t v] I. apply clean_id. apply (hs_table _ H t v I). }
  destruct (s_valdefs sg) as [|v0 vs]; [constructor|]. apply Forall_cons; [cl|]. apply Forall_cons; [cl|].
  apply cleans_concat. intros l I. apply in_map_iff in I. destruct I as (p & <- & I). specialize (X p I). cls.
Qed.
Lemma macros_clean : forall g m sgs passed passed' t, sig_macros g m passed sgs = Ok (passed', t) -> gen_ok g -> clean (g_name m) ->
  (forall sg, In sg sgs -> clean (s_name sg) /\ header_sig_ok sg) -> cleans t.
Proof.
  intros g m. induction sgs as [|sg sgs IH]; intros passed passed' t E G N H; cbn [sig_macros] in E.
  - apply Ok_pair in E. destruct E as [_ <-]. constructor.
  - destruct (H sg (or_introl eq_refl)) as [HN HS]. pose proof (clean_ident _ (go_DRV _ G)) as GD.
    assert (IH' : forall p p' t', sig_macros g m p sgs = Ok (p', t') -> cleans t').
    { intros p p' t' X. eapply IH; eauto. intros s I. apply H. now right. }
    destruct (s_simple sg || smem (s_name sg) passed); cbn [bind] in E.
    + destruct (sig_macros g m passed sgs) as [[p2 ts]| |] eqn:ER; cbn [bind] in E; try discriminate. apply Ok_pair in E. destruct E as [_ <-].
      cbn [List.app]. apply cleans_app; [now apply table_clean|eauto].
    + destruct (print_physical_to_raw sg (n_DRV g)) as [pt| |] eqn:EP; cbn [bind] in E; try discriminate.
      destruct (sig_macros g m (s_name sg :: passed) sgs) as [[p2 ts]| |] eqn:ER; cbn [bind] in E; try discriminate. apply Ok_pair in E. destruct E as [_ <-].
      pose proof (macro_clean _ _ _ EP HN GD). apply (cleans_app [append_s pt]); [cls|]. apply cleans_app; [now apply table_clean|eauto].
Qed.

Lemma consts_clean : forall m, clean (g_name m) -> clean (g_comment m) -> cleans (msg_consts m).
Proof. intros m N C. unfold msg_consts. apply cleans_app; [destruct (has_text (g_comment m)); cls|]. apply cleans_app; [cls|]. destruct (0 <? g_cycle m)%Z; cls. Qed.

Lemma msg_clean : forall g passed m passed' t, msg_header g passed m = Ok (passed', t) -> gen_ok g -> is_ident (n_usebits g) = true ->
  hmsg_ok m -> msg_text_clean m -> cleans t.
Proof.
  intros g passed m passed' t E G B M T. pose proof (clean_ident _ (mo_name _ (hk_msg _ M))) as N.
  pose proof (clean_ident _ B) as CB. pose proof (clean_ident _ (go_mon _ G)) as CM.
  pose proof (consts_clean m N (proj1 T)) as CC. unfold msg_header in E. destruct (g_notempty m); cbn [negb] in E.
  - destruct (sig_macros g m passed (g_sigs m)) as [[p2 ma]| |] eqn:EM; cbn [bind] in E; try discriminate.
    destruct (struct_fields g m true _) as [b1| |] eqn:E1; cbn [bind] in E; try discriminate.
    destruct (struct_fields g m false _) as [b2| |] eqn:E2; cbn [bind] in E; try discriminate.
    apply Ok_pair in E. destruct E as [_ <-].
    pose proof (fields_clean _ _ _ _ _ E1 G M T) as C1. pose proof (fields_clean _ _ _ _ _ E2 G M T) as C2.
    assert (CM' : cleans ma).
    { eapply macros_clean; eauto. intros sg I. split; [apply clean_ident, (mo_sigs _ (hk_msg _ M) sg I)|now apply (hk_sigs _ M)]. }
    apply cleans_app; [exact CC|]. apply cleans_app; [exact CM'|]. apply cleans_app; [cls|]. apply cleans_app; [exact C1|].
    apply cleans_app; [cls|]. apply cleans_app; [exact C2|]. cls.
  - apply Ok_pair in E. destruct E as [_ <-]. apply cleans_app; [exact CC|cls].
Qed.
Lemma msgs_clean : forall g xs passed t, msg_headers g passed xs = Ok t -> gen_ok g -> is_ident (n_usebits g) = true ->
  (forall x, In x xs -> hmsg_ok (x_msg x) /\ msg_text_clean (x_msg x)) -> cleans t.
Proof.
  intros g. induction xs as [|x xs IH]; intros passed t E G B H; cbn [msg_headers] in E; [apply Ok_inj in E; subst t; constructor|].
  destruct (msg_header g passed (x_msg x)) as [[p1 t1]| |] eqn:E1; cbn [bind] in E; try discriminate.
  destruct (msg_headers g p1 xs) as [t2| |] eqn:E2; cbn [bind] in E; try discriminate. apply Ok_inj in E. subst t.
  destruct (H x (or_introl eq_refl)) as [M T]. apply cleans_app; [eapply msg_clean; eauto|]. eapply IH; eauto. intros y Y. apply H. now right.
Qed.
Lemma protos_clean : forall g m, clean (n_orig g) -> clean (n_usestruct g) -> clean (g_name m) -> cleans (msg_prototypes g m).
Proof. intros g m O S N. unfold msg_prototypes. destruct (negb (g_notempty m)); cls. Qed.

Lemma header_clean : forall g mx xs ps, main_header g mx xs = Ok ps -> head_ok g -> clean (n_cominfo g) -> clean (n_drvinfo g) ->
  (forall x, In x xs -> hmsg_ok (x_msg x) /\ msg_text_clean (x_msg x)) -> clean (sconcat ps).
Proof.
  intros g mx xs ps E [SO (HB & _) (V1 & V2)] CI DI H. unfold main_header in E.
  destruct (msg_headers g [] xs) as [ms| |] eqn:EM; cbn [bind] in E; try discriminate. apply Ok_inj in E. subst ps.
  pose proof (so_gen _ _ SO) as G. apply sconcat_clean.
  pose proof (clean_ident _ V1). pose proof (clean_ident _ V2). pose proof (clean_id _ (go_drv _ G)). pose proof (clean_ident _ (go_mon _ G)).
  pose proof (clean_ident _ (go_DRV _ G)). pose proof (clean_id _ (so_orig _ _ SO)). pose proof (clean_ident _ (so_struct _ _ SO)).
  assert (DQ : clean dq) by reflexivity. assert (C1 : clean cpp_open) by reflexivity. assert (C2 : clean cpp_close) by reflexivity.
  apply cleans_app; [|apply cleans_app; [|apply cleans_app; [cls|apply cleans_app; [|cls]]]].
  - unfold header_top, maxdlc_name, validate_name, initial_name. cls.
  - eapply msgs_clean; eauto.
  - apply cleans_concat. intros l I. apply in_map_iff in I. destruct I as (x & <- & I). apply protos_clean; auto.
    apply clean_ident, (hk_msg _ (proj1 (H x I))).
Qed.

Theorem driver_clean : forall drv g d h c, driver drv g d h c -> header_ok d -> clean (n_cominfo g) -> clean (n_drvinfo g) ->
  (forall msg, In msg (d_msgs d) -> msg_text_clean msg) -> splice h = h.
Proof.
  intros drv g d h c [RUN [DI DL] MS ND] HO CI CD TC. apply splice_clean.
  destruct RUN as (srt & out & date & dbc & hi & low & nc & ni & nf & rest & SR & DT & DB & HI & LO & G & GM).
  set (s := configure drv out (common_info date) (driver_info dbc) hi low nc ni nf) in *.
  assert (EO : forall m, In m (d_msgs d) -> emit_ok m).
  { intros m I. destruct (MS m I) as (A & B & C). constructor; auto. now apply short_few. }
  destruct (map_res_loaded (d_msgs d)) as (xs0 & LM & F0).
  { intros m I. split; apply (EO m I). }
  unfold generate_main in GM. rewrite load_messages_map, LM in GM. cbn [bind] in GM.
  set (xs := srt ciexpr (fun x => g_id (x_msg x)) xs0) in *.
  assert (PX : Permutation xs xs0) by apply SR.
  destruct (loaded_self _ _ F0) as [FS EM].
  assert (PM : Permutation (map x_msg xs) (d_msgs d)) by (rewrite EM; now apply Permutation_map).
  pose proof (configure_head drv out date dbc hi low nc ni nf DI DL DT DB HI LO) as HD. fold s in HD.
  rewrite <- G in *.
  destruct (main_header g (d_maxdlc d) xs) as [hd| |] eqn:EH; cbn [bind] in GM; try discriminate.
  destruct (main_source g (f_coreh (st_f s)) xs) as [sc| |]; cbn [bind] in GM; try discriminate.
  cbn [List.app] in GM. injection GM as <- _ _.
  eapply header_clean; eauto. intros x I.
  assert (IM : In (x_msg x) (d_msgs d)) by (eapply Permutation_in; [exact PM|now apply in_map]).
  split; [|auto]. constructor; [apply (MS _ IM)|]. intros sg S. eapply ho_sigs; eauto.
Qed.
