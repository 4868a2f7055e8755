(** Consequences of the declared struct, and comments in the header. *)

From Coq Require Import ZArith NArith List String Ascii Bool Lia ZifyBool Permutation.
From Verif Require Import Base Dbl CSyntax CSem CRun Types Formatter SigPrinter Writer Settings StaticText MainGen App
  CodecSpec MsgSpec LexLemmas BitLemmas PPProof BodyLemmas UnpackBody SourceFun DriverSpec DriverProof PackRun HeaderSpec HeaderProof HeaderRun
  CodecEnv CodecThms CodecFacts StructSpec SwitchNames SpliceProof StructProof.
Import ListNotations.
Open Scope string_scope.

(** ** Switches *)

Lemma kept_free : forall e x, program e -> switches_kept e -> In x (switches (e_g e)) -> ~ In x (defines (lines (e_h e))).
Proof. intros e x P K I. apply (switches_free _ _ _ _ _ _ (pr_driver _ P) (pr_header _ P) I). intros msg M J. exact (K msg x M J I). Qed.

Lemma switch_name : forall drv g d h c x, driver drv g d h c -> In x (switches g) -> has_char "_" x = true.
Proof.
  intros drv g d h c x [RUN [DI DL] MS ND] I.
  destruct RUN as (srt & out & date & dbc & hi & low & nc & ni & nf & rest & SR & DT & DB & HI & LO & G & GM).
  assert (LU : String.length (str_toupper drv) = String.length drv) by apply len_map.
  subst g. unfold switches, configure in I. cbn [st_g n_usebits n_usesigfloat n_useroll n_usemon n_usestruct] in I.
  rewrite !tmpb_short in I by (rewrite !app_len, LU; cbn [String.length]; lia).
  destruct I as [<-|[<-|[<-|[<-|[<-|[]]]]]]; rewrite has_char_app; apply orb_true_r.
Qed.

Lemma default_keeps : forall x M, has_char "_" x = true -> defined x (with_defaults M) = defined x M.
Proof.
  intros x M H. unfold with_defaults, guard. 
  assert (X : forall y d N, fst (pp_define d) = y -> x <> y -> defined x (if defined y N then N else pp_define d :: N) = defined x N).
  { intros y d N E NE. destruct (defined y N); [reflexivity|]. unfold defined. cbn [lookup]. destruct (pp_define d) as [z mc]. cbn [fst] in E. subst z.
    cbn [lookup]. destruct (String.eqb_spec x y); [congruence|reflexivity]. }
  rewrite X; [|vm_compute; reflexivity|intros ->; discriminate]. rewrite X; [reflexivity|vm_compute; reflexivity|intros ->; discriminate].
Qed.

Lemma switch_same : forall e x, program e -> switches_kept e -> In x (switches (e_g e)) -> defined x (e_macros e) = defined x (e_conf e).
Proof.
  intros e x P K I. destruct (driver_unit _ _ _ _ _ (after_header (e_conf e) (e_h e)) (pr_driver _ P)) as (ms & coreh & _ & _ & _ & _ & _ & CP).
  unfold e_macros, e_unit. rewrite CP. cbn [u_macros]. rewrite default_keeps by (eapply switch_name; [apply (pr_driver _ P)|exact I]).
  unfold defined. now rewrite not_defined by (apply (kept_free e); assumption).
Qed.

(** ** The struct *)

Lemma raw_member_ty : forall bits x sg, member_ty (raw_member bits x sg) = Some (field_ty bits sg).
Proof. intros. unfold member_ty, raw_member, field_ty. cbn [md_type md_bits]. rewrite std_type. now destruct (bits && _). Qed.
Lemma phys_member_ty : forall sg, member_ty (phys_member sg) = Some (phys_ty sg).
Proof. intros. unfold member_ty, phys_member, phys_ty. cbn [md_type md_bits]. destruct (s_double sg); [reflexivity|]. now rewrite std_type. Qed.

Lemma laid_out_struct : forall bits floats rolls mons msg m, laid_out m (all_members bits floats rolls mons msg) -> has_struct floats rolls bits msg m.
Proof.
  intros bits floats rolls mons msg m H. constructor.
  - intros sg I. apply (H (raw_member bits (s_name sg) sg)); [|apply raw_member_ty].
    unfold all_members. apply in_or_app. left. apply in_flat_map. exists sg. split; [exact I|now left].
  - intros -> sg I S. apply (H (phys_member sg)); [|apply phys_member_ty].
    unfold all_members. apply in_or_app. left. apply in_flat_map. exists sg. split; [exact I|]. right. rewrite S. now left.
  - intros -> sg R. apply (H (raw_member bits (s_name sg ++ "_expt") sg)); [|apply raw_member_ty].
    unfold all_members. apply in_or_app. right. apply in_or_app. left. rewrite R. now left.
Qed.

Lemma program_splice : forall e, program e -> no_backslashes e -> splice (e_h e) = e_h e.
Proof. intros e P (A & B & C). eapply driver_clean; eauto; apply P. Qed.

Lemma program_struct : forall e msg, program e -> In msg (d_msgs (e_db e)) -> g_notempty msg = true -> splice (e_h e) = e_h e -> switches_kept e ->
  declares (text_toks (e_conf e) (e_h e)) (type_name msg)
    (all_members (on e n_usebits) (on e n_usesigfloat) (on e n_useroll) (on e n_usemon) msg).
Proof. intros e msg P I N S K. eapply struct_declared; eauto; try apply P. intros x X. now apply kept_free. Qed.

Lemma stored_any : forall bits sg t z, raw_type_ok sg -> (1 <= s_len sg)%Z -> carries (s_signed sg) (s_len sg) z ->
  exists t1, to_obj (field_ty bits sg) (VI t z) = Ok (VI t1 z).
Proof.
  intros bits sg t z R L C. rewrite (store_carries bits sg t z R L C). unfold stored, field_ty. destruct (bits && _); eauto.
Qed.

Lemma bitfields : forall e msg, program e -> In msg (d_msgs (e_db e)) -> g_notempty msg = true -> no_backslashes e -> switches_kept e ->
  exists ds, declares (text_toks (e_conf e) (e_h e)) (type_name msg) ds /\
    (forall sg, In sg (g_sigs msg) -> exists d t, In d ds /\ md_name d = s_name sg /\ member_ty d = Some t /\
       md_bits d = (if on e n_usebits && (s_len sg <? 8)%Z then Some (s_len sg) else None) /\
       forall z t0, carries (s_signed sg) (s_len sg) z -> exists t1, to_obj t (VI t0 z) = Ok (VI t1 z)) /\
    (forall m, laid_out m ds -> has_struct (floats_on e) (rolls_on e) (on e n_usebits) msg m).
Proof.
  intros e msg P I N B K. exists (all_members (on e n_usebits) (on e n_usesigfloat) (on e n_useroll) (on e n_usemon) msg).
  split; [apply program_struct; auto; now apply program_splice|]. split.
  - intros sg S. exists (raw_member (on e n_usebits) (s_name sg) sg), (field_ty (on e n_usebits) sg).
    split; [|split; [reflexivity|split; [apply raw_member_ty|split; [reflexivity|]]]].
    + unfold all_members. apply in_or_app. left. apply in_flat_map. exists sg. split; [exact S|now left].
    + intros z t0 C. pose proof (pr_driver _ P) as D. destruct D as [_ _ MS _]. destruct (MS msg I) as (MO & _).
      pose proof (mo_sigs _ MO sg S) as OK. pose proof (ok_len _ _ OK). apply stored_any; auto; [apply OK|lia].
  - intros m L. apply laid_out_struct in L. unfold floats_on, rolls_on. rewrite !switch_same; auto; cbn; tauto.
Qed.

(** Unpack with and without bit-fields *)
Lemma unpack_same : forall e1 e2 msg bits1 bits2 d dl1 dl2 tick1 tick2 hash1 hash2 hook1 hook2 pf1 pf2 m1 m2,
  receives e1 msg bits1 d dl1 tick1 hash1 hook1 pf1 m1 -> receives e2 msg bits2 d dl2 tick2 hash2 hook2 pf2 m2 -> signed_fit msg ->
  exists m1' m2', unpack e1 msg m1 = Ok (m1', Some (VI U32 (g_id msg))) /\ unpack e2 msg m2 = Ok (m2', Some (VI U32 (g_id msg))) /\
    forall sg, In sg (g_sigs msg) -> exists z, field_is m1' sg z /\ field_is m2' sg z /\ carries (s_signed sg) (s_len sg) z.
Proof.
  intros e1 e2 msg bits1 bits2 d dl1 dl2 tick1 tick2 hash1 hash2 hook1 hook2 pf1 pf2 m1 m2 RA RB SF.
  pose proof (receives_msg _ _ _ _ _ _ _ _ _ _ RA) as MO.
  destruct (receive_run _ _ _ _ _ _ _ _ _ _ RA SF) as (ma' & RUNA & UA & _).
  destruct (receive_run _ _ _ _ _ _ _ _ _ _ RB SF) as (mb' & RUNB & UB' & _).
  exists ma', mb'. split; [exact RUNA|]. split; [exact RUNB|]. intros sg I.
  destruct (ur_range _ _ _ _ _ _ _ _ UA sg I) as (z & FA & CA & BA). destruct (ur_range _ _ _ _ _ _ _ _ UB' sg I) as (z' & FB & CB & BB).
  exists z. split; [exact FA|]. split; [|exact CA]. replace z with z'; [exact FB|].
  pose proof (ok_len _ _ (mo_sigs _ MO sg I)) as L.
  rewrite <- (mod_value (s_signed sg) (s_len sg) z') by (auto; lia). rewrite <- (mod_value (s_signed sg) (s_len sg) z) by (auto; lia).
  assert (M : (z' mod 2 ^ s_len sg = z mod 2 ^ s_len sg)%Z); [|now rewrite M].
  apply Z.bits_inj'. intros k K. rewrite !mod_testbit by lia. destruct (Z.ltb_spec k (s_len sg)) as [KL|KL]; [|reflexivity].
  now rewrite BA, BB by lia.
Qed.

(** ** Comments *)

Lemma replace_in : forall p c racc l, no_nl p = true -> In l (lines_aux racc c) ->
  In (p ++ l) (lines_aux (racc ++ rev_string p) (replace_nl p c ++ nl)).
Proof.
  intros p. induction c as [|a c IH]; intros racc l P I.
  - assert (E : l = rev_string racc) by (destruct racc; cbn in I; [contradiction|destruct I as [<-|[]]; reflexivity]).
    subst l. cbn. left. now rewrite rev_app, rev_rev.
  - cbn [lines_aux] in I. cbn [replace_nl]. destruct (Ascii.eqb a NL) eqn:E.
    + cbn [String.append lines_aux]. change (Ascii.eqb NL NL) with true. cbv iota. destruct I as [<-|I].
      * left. now rewrite rev_app, rev_rev.
      * right. rewrite app_assoc, lines_acc, app_nil_r by auto. exact (IH "" l P I).
    + cbn [String.append lines_aux]. rewrite E. exact (IH (String a racc) l P I).
Qed.
Lemma comment_in : forall p c l, no_nl p = true -> p <> "" -> In l (lines c) -> In (p ++ l) (lines (append_s (p ++ replace_nl p c))).
Proof.
  intros p c l P N I.
  assert (X : In (p ++ l) (lines ((p ++ replace_nl p c) ++ nl))).
  { unfold lines. rewrite app_assoc, lines_acc, app_nil_r by auto. exact (replace_in p c "" l P I). }
  unfold append_s. destruct (last_char (p ++ replace_nl p c)) as [ch|] eqn:E.
  - destruct (Ascii.eqb ch NL) eqn:NLC; [|exact X].
    assert (A : append_s (p ++ replace_nl p c) = p ++ replace_nl p c) by (unfold append_s; now rewrite E, NLC).
    pose proof (append_s_full (p ++ replace_nl p c)) as F. rewrite A in F. rewrite lines_full in X by exact F.
    apply in_app_or in X. destruct X as [X|X]; [exact X|]. cbn in X. destruct X as [X|[]]. destruct p; [congruence|discriminate].
  - destruct p as [|b p]; [congruence|]. exfalso. clear - E. cbn [String.append] in E. set (s := p ++ replace_nl (String b p) c) in E. clearbody s. revert b E.
    induction s as [|d s IH]; intros b E; [discriminate|]. cbn [last_char] in *. eauto.
Qed.

Definition pre (ps : list string) : Prop := exists ls, part ps ls.
Definition shown (ps : list string) (q : string) : Prop := full q /\ exists a b, ps = (a ++ [q] ++ b)%list /\ pre a.
Lemma pre_app : forall a b, pre a -> pre b -> pre (a ++ b).
Proof. intros a b (la & A) (lb & B). exists (la ++ lb)%list. now apply part_app. Qed.
Lemma pre_bpart : forall a, bpart a -> pre a.
Proof. intros a (l & P & _). now exists l. Qed.
Lemma pre_full : forall q, full q -> pre [q].
Proof. intros q F. eexists. now apply part_full. Qed.
Lemma pre_L : forall s, pre [L s].
Proof. intros s. apply pre_full, L_full. Qed.
Lemma pre_nil : pre [].
Proof. exists []. apply part_nil. Qed.
Lemma pre_yp : forall M ps t, ypart M ps t -> pre ps.
Proof. intros M ps t (ls & P & _). now exists ls. Qed.
Lemma pre_cons : forall q b, pre [q] -> pre b -> pre (q :: b).
Proof. intros q b Q B. exact (pre_app [q] b Q B). Qed.
Lemma shown_l : forall a b q, shown a q -> shown (a ++ b) q.
Proof. intros a b q (F & x & y & -> & P). split; [exact F|]. exists x, (y ++ b)%list. split; [now rewrite <- !List.app_assoc|exact P]. Qed.
Lemma shown_r : forall a b q, shown a q -> pre b -> shown (b ++ a) q.
Proof. intros a b q (F & x & y & -> & P) B. split; [exact F|]. exists (b ++ x)%list, y. split; [now rewrite <- !List.app_assoc|now apply pre_app]. Qed.
Lemma shown_in : forall q, full q -> shown [q] q.
Proof. intros q F. split; [exact F|]. exists [], []. split; [reflexivity|apply pre_nil]. Qed.
Lemma shown_lines : forall ps q l, shown ps q -> In l (lines q) -> In l (lines (sconcat ps)).
Proof.
  intros ps q l (F & a & b & -> & la & P) I. rewrite sconcat_app. rewrite P. apply in_or_app. right.
  rewrite sconcat_app. cbn [sconcat]. rewrite app_nil_r, lines_full by exact F. apply in_or_app. now left.
Qed.

Definition sig_comment (c : string) : string := append_s ("  // " ++ replace_nl "  // " c).

Lemma field_shown : forall g bits w sg t, sig_struct_field g bits w sg = Ok t -> has_text (s_comment sg) = true -> shown t (sig_comment (s_comment sg)).
Proof.
  intros g bits w sg t E H. unfold sig_struct_field in E.
  destruct (field_decl sg bits w); cbn [bind] in E; try discriminate. destruct (info_comment sg); cbn [bind] in E; try discriminate.
  apply Ok_inj in E. subst t. rewrite H. apply shown_l. apply shown_in, append_s_full.
Qed.
Lemma fields_shown : forall g m bits w t sg, gen_ok g -> hmsg_ok m -> struct_fields g m bits w = Ok t -> In sg (g_sigs m) ->
  has_text (s_comment sg) = true -> shown t (sig_comment (s_comment sg)).
Proof.
  intros g m bits w t sg GO [MO HO] E I H. unfold struct_fields in E.
  destruct (map_res (sig_struct_field g bits w) (g_sigs m)) as [f| |] eqn:EF; cbn [bind] in E; try discriminate.
  assert (S : shown (List.concat f) (sig_comment (s_comment sg))).
  { clear E. assert (X : forall l f, (forall s, In s l -> In s (g_sigs m)) -> map_res (sig_struct_field g bits w) l = Ok f -> In sg l -> shown (List.concat f) (sig_comment (s_comment sg))).
    { induction l as [|s l IH]; intros f0 S EF0 J; [contradiction|].
      cbn [map_res] in EF0. destruct (sig_struct_field g bits w s) as [p| |] eqn:EP; cbn [bind] in EF0; try discriminate.
      destruct (map_res (sig_struct_field g bits w) l) as [q| |] eqn:EQ; cbn [bind] in EF0; try discriminate. apply Ok_inj in EF0. subst f0. cbn [List.concat].
      destruct J as [->|J]; [apply shown_l; eapply field_shown; eauto|].
      apply shown_r; [apply (IH q); auto; intros; apply S; now right|].
      pose proof (mo_sigs m MO s (S s (or_introl eq_refl))) as SO. pose proof (HO s (S s (or_introl eq_refl))) as HS. pose proof (ok_len _ _ SO).
      eapply (pre_yp []). apply (field_yp [] g bits w s p EP GO); [apply SO|lia|apply HS|apply SO]. }
    eapply X; eauto. }
  destruct (roll_sig m) as [rs|].
  - destruct (sig_struct_field g bits w (expt_sig rs)) as [p| |]; cbn [bind] in E; try discriminate. apply Ok_inj in E. subst t. now apply shown_l.
  - cbn [bind] in E. apply Ok_inj in E. subst t. now apply shown_l.
Qed.

Lemma msg_shown : forall g m passed passed' t, src_ok g "" -> hmsg_ok m -> msg_header g passed m = Ok (passed', t) ->
  (has_text (g_comment m) = true -> shown t (append_s ("// " ++ replace_nl "// " (g_comment m)))) /\
  (g_notempty m = true -> forall sg, In sg (g_sigs m) -> has_text (s_comment sg) = true -> shown t (sig_comment (s_comment sg))).
Proof.
  intros g m passed passed' t SG HM E. pose proof (so_gen _ _ SG) as GO. destruct (consts_top m (hk_msg _ HM)) as [C1 C2].
  assert (SC : has_text (g_comment m) = true -> shown (msg_consts m) (append_s ("// " ++ replace_nl "// " (g_comment m)))).
  { intros H. unfold msg_consts. rewrite H. apply shown_l. apply shown_in, append_s_full. }
  unfold msg_header in E. destruct (g_notempty m) eqn:NE; cbn [negb] in E.
  - destruct (sig_macros g m passed (g_sigs m)) as [[p2 ms]| |] eqn:EM; cbn [bind] in E; try discriminate.
    destruct (macros_top g m (g_sigs m) passed p2 ms GO (hk_msg _ HM) (fun sg I => I) (hk_sigs _ HM) EM) as (M1 & _).
    destruct (struct_fields g m true _) as [fb| |] eqn:EB; cbn [bind] in E; try discriminate.
    destruct (struct_fields g m false _) as [fp| |] eqn:EP; cbn [bind] in E; try discriminate.
    apply Ok_pair in E. destruct E as [_ <-]. split; [intros H; apply shown_l; auto|]. intros _ sg I H.
    apply shown_r; [|now apply pre_bpart]. apply shown_r; [|now apply pre_bpart].
    apply shown_r; [|repeat (apply pre_cons; [first [apply pre_L|apply pre_bpart; apply bp_nls]|]); apply pre_nil].
    apply shown_l. eapply fields_shown; eauto.
  - apply Ok_pair in E. destruct E as [_ <-]. split; [intros H; apply shown_l; auto|discriminate].
Qed.

Definition comments_shown (ps : list string) (m : message) : Prop :=
  (has_text (g_comment m) = true -> shown ps (append_s ("// " ++ replace_nl "// " (g_comment m)))) /\
  (g_notempty m = true -> forall sg, In sg (g_sigs m) -> has_text (s_comment sg) = true -> shown ps (sig_comment (s_comment sg))).
Lemma cs_l : forall a b m, comments_shown a m -> comments_shown (a ++ b) m.
Proof. intros a b m [A B]. split; intros; apply shown_l; auto. Qed.
Lemma cs_r : forall a b m, comments_shown a m -> pre b -> comments_shown (b ++ a) m.
Proof. intros a b m [A B] P. split; intros; apply shown_r; auto. Qed.

Lemma headers_shown : forall g xs passed t x, head_ok g -> (forall x, In x xs -> hmsg_ok (x_msg x)) ->
  msg_headers g passed xs = Ok t -> In x xs -> comments_shown t (x_msg x).
Proof.
  intros g. induction xs as [|y r IH]; intros passed t x HD OK E I; [contradiction|].
  cbn [msg_headers] in E. destruct (msg_header g passed (x_msg y)) as [[p1 t1]| |] eqn:EH; cbn [bind] in E; try discriminate.
  destruct (msg_headers g p1 r) as [ts| |] eqn:ER; cbn [bind] in E; try discriminate. apply Ok_inj in E. subst t.
  destruct (msg_header_top g (x_msg y) passed p1 t1 (hd_src _ HD) (proj1 (hd_bits _ HD)) (proj2 (hd_bits _ HD)) (OK y (or_introl eq_refl)) EH) as (H1 & _).
  destruct I as [<-|I].
  - apply cs_l. apply (msg_shown g (x_msg y) passed p1 t1 (hd_src _ HD) (OK y (or_introl eq_refl)) EH).
  - apply cs_r; [|now apply pre_bpart]. eapply IH; eauto. intros z Z. apply OK. now right.
Qed.

Lemma driver_comments : forall drv g d h c msg, driver drv g d h c -> header_ok d -> In msg (d_msgs d) ->
  (g_comment msg <> "" -> forall l, In l (lines (g_comment msg)) -> In ("// " ++ l) (lines h)) /\
  (g_notempty msg = true -> forall sg, In sg (g_sigs msg) -> s_comment sg <> "" ->
     forall l, In l (lines (s_comment sg)) -> In ("  // " ++ l) (lines h)).
Proof.
  intros drv g d h c msg [RUN [DI DL] MS ND] HO IM.
  destruct RUN as (srt & out & date & dbc & hi & low & nc & ni & nf & rest & SR & DT & DB & HI & LO & G & GM).
  set (s := configure drv out (common_info date) (driver_info dbc) hi low nc ni nf) in *.
  assert (EO : forall m, In m (d_msgs d) -> emit_ok m).
  { intros m I. destruct (MS m I) as (A & B & C). constructor; auto. now apply short_few. }
  destruct (map_res_loaded (d_msgs d)) as (xs0 & LM & F0).
  { intros m I. split; apply (EO m I). }
  unfold generate_main in GM. rewrite load_messages_map, LM in GM. cbn [bind] in GM.
  set (xs := srt ciexpr (fun x => g_id (x_msg x)) xs0) in *.
  assert (PX : Permutation xs xs0) by apply SR.
  destruct (loaded_self _ _ F0) as [FS EM].
  assert (PM : Permutation (map x_msg xs) (d_msgs d)) by (rewrite EM; now apply Permutation_map).
  assert (HK : forall x, In x xs -> hmsg_ok (x_msg x)).
  { intros x I. assert (IM' : In (x_msg x) (d_msgs d)) by (eapply Permutation_in; [exact PM|now apply in_map]).
    constructor; [apply (MS _ IM')|]. intros sg S. eapply ho_sigs; eauto. }
  pose proof (configure_head drv out date dbc hi low nc ni nf DI DL DT DB HI LO) as HD. fold s in HD.
  rewrite <- G in *.
  destruct (main_header g (d_maxdlc d) xs) as [hd| |] eqn:EH; cbn [bind] in GM; try discriminate.
  destruct (main_source g (f_coreh (st_f s)) xs) as [sc| |]; cbn [bind] in GM; try discriminate.
  cbn [List.app] in GM. injection GM as <- _ _.
  assert (J : In msg (map x_msg xs)) by (eapply Permutation_in; [apply Permutation_sym; exact PM|exact IM]).
  apply in_map_iff in J. destruct J as (x & <- & J). pose proof (ho_dlc d HO).
  unfold main_header in EH. destruct (msg_headers g [] xs) as [t| |] eqn:EHS; cbn [bind] in EH; try discriminate. apply Ok_inj in EH. subst hd.
  destruct (head_top g (d_maxdlc d) HD ltac:(lia)) as (T0 & _).
  pose proof (headers_shown _ _ _ _ _ HD HK EHS J) as CS.
  assert (CH : comments_shown (header_top g (d_maxdlc d) ++ t ++ [L "// Function signatures"; nls 1] ++ List.concat (map (fun x => msg_prototypes g (x_msg x)) xs) ++ [L cpp_close]) (x_msg x)).
  { apply cs_r; [|now apply pre_bpart]. now apply cs_l. }
  destruct CH as [C1 C2].
  assert (HT : forall x, x <> "" -> has_text x = true) by (intros x0 N; unfold has_text; destruct (String.eqb_spec x0 ""); [congruence|reflexivity]).
  split.
  - intros N l L. eapply shown_lines; [apply C1; auto|]. apply comment_in; auto. discriminate.
  - intros NE sg I N l L. eapply shown_lines; [apply (C2 NE sg I); auto|]. apply comment_in; auto. discriminate.
Qed.

