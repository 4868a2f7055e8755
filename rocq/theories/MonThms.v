(** Proofs of the statements in Props_monitor.v. *)

From Coq Require Import ZArith NArith List String Ascii Bool Permutation Znumtheory Lia ZifyBool.
From Verif Require Import Base Dbl CSyntax CSem CRun Types Formatter Settings MainGen App CodecSpec MsgSpec BitLemmas UnpackFun DriverSpec DriverProof PackRun HeaderSpec CodecEnv CodecThms CodecFacts MonSpec.
Import ListNotations.
Open Scope Z_scope.
Ltac Zify.zify_post_hook ::= Z.to_euclidean_division_equations.

(** ** Histories *)

Lemma history_app : forall msg bits l1 l2 m m2, history msg bits m (l1 ++ l2) m2 ->
  exists m1, history msg bits m l1 m1 /\ history msg bits m1 l2 m2.
Proof.
  intros msg bits l1. induction l1 as [|r l1 IH]; intros l2 m m2 H; cbn [app] in H.
  - exists m. split; [constructor|exact H].
  - inversion H as [|? m0 m1 ? ? ? v K R ON U H']; subst. destruct (IH _ _ _ H') as (m3 & A & B).
    exists m3. split; [|exact B]. econstructor; eauto.
Qed.

(** one call, seen from the monitor *)
Lemma history_step : forall msg bits m r m', history msg bits m [r] m' -> signed_fit msg ->
  exists m0 m1, monitor_kept msg m m0 /\
    receives (r_env r) msg bits (r_data r) (r_len r) (r_tick r) (r_hash r) (r_hook r) (r_phys r) m0 /\
    m' = r_hook r m1 /\
    monitored (e_macros (r_env r)) (e_g (r_env r)) msg bits (r_data r) (r_len r) (r_tick r) (r_hash r) m0 m1 /\
    (forall sg, counter_on (e_macros (r_env r)) (e_g (r_env r)) msg = Some sg -> m_scal m' (expected sg) = m_scal m1 (expected sg)).
Proof.
  intros msg bits m r m' H SF. inversion H as [|? m0 m1 ? ? ? v K R ON U H']; subst. inversion H'; subst.
  destruct (receive_run _ _ _ _ _ _ _ _ _ _ R SF) as (m2 & RUN & _ & _ & MON). rewrite RUN in U. injection U. intros _ <-.
  destruct (MON ON) as (m3 & E & MD & X). exists m0, m3. auto.
Qed.

Lemma kept_mon : forall msg m m0 f, monitor_kept msg m m0 -> int_at m0 (mon_path f) = int_at m (mon_path f).
Proof. intros msg m m0 f [K _]. unfold int_at. rewrite K by (now exists f). reflexivity. Qed.
Lemma hook_mon : forall r m f, (forall m, m_scal (r_hook r m) (mon_path f) = m_scal m (mon_path f)) ->
  int_at (r_hook r m) (mon_path f) = int_at m (mon_path f).
Proof. intros r m f H. unfold int_at. now rewrite H. Qed.

(** ** Bookkeeping *)

Lemma frames_counted : forall msg bits l m m' k, history msg bits m l m' -> signed_fit msg -> hooks_keep l "frame_cnt" ->
  int_at m (mon_path "frame_cnt") = Some k -> 0 <= k < 2 ^ 32 ->
  int_at m' (mon_path "frame_cnt") = Some ((k + Z.of_nat (List.length l)) mod 2 ^ 32).
Proof.
  intros msg bits l. induction l as [|r l IH]; intros m m' k H SF HK E B.
  - inversion H; subst. cbn [List.length Z.of_nat]. rewrite Z.add_0_r, Z.mod_small by lia. exact E.
  - change (r :: l) with ([r] ++ l)%list in H. apply history_app in H. destruct H as (m1 & H1 & H2).
    destruct (history_step _ _ _ _ _ H1 SF) as (m0 & m2 & K & R & EQ & MD & _).
    assert (E1 : int_at m1 (mon_path "frame_cnt") = Some ((k + 1) mod 2 ^ 32)).
    { subst m1. rewrite hook_mon by (apply HK; now left). apply (md_cnt _ _ _ _ _ _ _ _ _ _ MD). now rewrite (kept_mon _ _ _ _ K). }
    rewrite (IH m1 m' ((k + 1) mod 2 ^ 32) H2 SF) ; auto.
    + f_equal. rewrite Zplus_mod_idemp_l. f_equal. cbn [List.length]. lia.
    + intros r' I. apply HK. now right.
    + apply Z.mod_pos_bound. reflexivity.
Qed.

Lemma last_frame : forall msg bits l r m m', history msg bits m (l ++ [r]) m' -> signed_fit msg ->
  (hooks_keep [r] "last_cycle" -> int_at m' (mon_path "last_cycle") = Some (r_tick r)) /\
  (hooks_keep [r] "dlc_error" -> int_at m' (mon_path "dlc_error") = Some (flag (r_len r <? g_dlc msg))).
Proof.
  intros msg bits l r m m' H SF. apply history_app in H. destruct H as (m1 & H1 & H2).
  destruct (history_step _ _ _ _ _ H2 SF) as (m0 & m2 & K & R & EQ & MD & _). subst m'.
  split; intros HK; rewrite hook_mon by (apply HK; now left); [apply (md_cycle _ _ _ _ _ _ _ _ _ _ MD)|apply (md_dlc _ _ _ _ _ _ _ _ _ _ MD)].
Qed.

(** ** Error flags *)

Lemma flag_kept_roll : forall msg bits l m m', history msg bits m l m' -> signed_fit msg -> counting msg l None -> hooks_keep l "roll_error" ->
  int_at m' (mon_path "roll_error") = int_at m (mon_path "roll_error").
Proof.
  intros msg bits l. induction l as [|r l IH]; intros m m' H SF C HK.
  - inversion H; subst. reflexivity.
  - change (r :: l) with ([r] ++ l)%list in H. apply history_app in H. destruct H as (m1 & H1 & H2).
    destruct (history_step _ _ _ _ _ H1 SF) as (m0 & m2 & K & R & EQ & MD & _).
    rewrite (IH m1 m' H2 SF); [|intros r' I; apply C; now right|intros r' I; apply HK; now right].
    subst m1. rewrite hook_mon by (apply HK; now left). pose proof (md_roll _ _ _ _ _ _ _ _ _ _ MD) as X.
    rewrite (C r) in X by now left. rewrite X. now apply (kept_mon msg).
Qed.
Lemma flag_kept_csm : forall msg bits l m m', history msg bits m l m' -> signed_fit msg -> summing msg l None -> hooks_keep l "csm_error" ->
  int_at m' (mon_path "csm_error") = int_at m (mon_path "csm_error").
Proof.
  intros msg bits l. induction l as [|r l IH]; intros m m' H SF C HK.
  - inversion H; subst. reflexivity.
  - change (r :: l) with ([r] ++ l)%list in H. apply history_app in H. destruct H as (m1 & H1 & H2).
    destruct (history_step _ _ _ _ _ H1 SF) as (m0 & m2 & K & R & EQ & MD & _).
    rewrite (IH m1 m' H2 SF); [|intros r' I; apply C; now right|intros r' I; apply HK; now right].
    subst m1. rewrite hook_mon by (apply HK; now left). pose proof (md_csm _ _ _ _ _ _ _ _ _ _ MD) as X.
    rewrite (C r) in X by now left. rewrite X. now apply (kept_mon msg).
Qed.

Lemma csm_last : forall msg bits l r m m' cs, history msg bits m (l ++ [r]) m' -> signed_fit msg -> summing msg [r] (Some cs) ->
  exact_layout cs -> hooks_keep [r] "csm_error" ->
  int_at m' (mon_path "csm_error") = Some (flag (negb (r_hash r (r_data r) mod 256 =? sig_value cs (r_data r)))).
Proof.
  intros msg bits l r m m' cs H SF C X HK. apply history_app in H. destruct H as (m1 & H1 & H2).
  destruct (history_step _ _ _ _ _ H2 SF) as (m0 & m2 & K & R & EQ & MD & _). subst m'.
  rewrite hook_mon by (apply HK; now left). pose proof (md_csm _ _ _ _ _ _ _ _ _ _ MD) as Y.
  rewrite (C r) in Y by now left. auto.
Qed.

(** ** Rolling counter, receiver *)

Lemma int_obj : forall bits sg z, raw_type_ok sg -> 1 <= s_len sg -> s_signed sg = false -> 0 <= z < 2 ^ s_len sg ->
  exists t, obj (field_ty bits sg) z = VI t z.
Proof.
  intros bits sg z [RT1 RT2] L US B. rewrite US in RT1. unfold obj, field_ty.
  assert (P : 2 ^ s_len sg <= 2 ^ width (s_typero sg)) by (apply Z.pow_le_mono_r; lia).
  destruct (bits && _); cbn [to_obj to_int]; unfold conv, uwrap; rewrite RT1; cbn [bind]; rewrite !(Z.mod_small z (2 ^ width (s_typero sg))) by lia; rewrite ?(Z.mod_small z (2 ^ s_len sg)) by lia; eauto.
Qed.

Lemma expected_int : forall floats bits msg sg m, msg_ok msg -> has_struct floats true bits msg m -> roll_sig msg = Some sg ->
  exists e, int_at m (expected sg) = Some e.
Proof.
  intros floats bits msg sg m MO HS RS. destruct (hs_expt _ _ _ _ _ HS eq_refl sg RS) as (v & E & T).
  unfold int_at, expected. rewrite E.
  assert (X : exists t z, v = VI t z).
  { unfold field_ty in T. destruct (bits && _); cbn [to_obj] in T; destruct (to_int _ _); cbn [bind] in T; try discriminate; injection T; eauto. }
  destruct X as (t & z & ->). eauto.
Qed.

Lemma roll_on : forall M g msg sg, counter_on M g msg = Some sg -> roll_sig msg = Some sg.
Proof. intros M g msg sg E. unfold counter_on in E. destruct (defined _ _); congruence. Qed.

(** one frame: comparison with the expected value, and the next one *)
Lemma roll_step : forall msg bits m r m' sg, history msg bits m [r] m' -> signed_fit msg -> counting msg [r] (Some sg) ->
  s_signed sg = false -> hooks_keep [r] "roll_error" ->
  (forall e, int_at m (expected sg) = Some e ->
     int_at m' (mon_path "roll_error") = Some (flag (negb (sig_value sg (r_data r) =? e)))) /\
  int_at m' (expected sg) = Some ((sig_value sg (r_data r) + 1) mod 2 ^ s_len sg).
Proof.
  intros msg bits m r m' sg H SF C US HK. destruct (history_step _ _ _ _ _ H SF) as (m0 & m2 & K & R & EQ & MD & X).
  pose proof (receives_msg _ _ _ _ _ _ _ _ _ _ R) as MO. specialize (C r (or_introl eq_refl)).
  pose proof (roll_on _ _ _ _ C) as RS. destruct (mo_roll _ MO sg RS) as [L31 _].
  pose proof (counter_in _ _ _ _ C) as I. pose proof (mo_sigs _ MO sg I) as SO. pose proof (ok_len _ _ SO) as LEN.
  assert (EX : exact_layout sg) by (left; lia).
  pose proof (md_roll _ _ _ _ _ _ _ _ _ _ MD) as Y. rewrite C in Y. specialize (Y EX).
  assert (KE : int_at m0 (expected sg) = int_at m (expected sg)) by (unfold int_at; rewrite (proj2 K sg RS); reflexivity).
  split.
  - intros e E. rewrite EQ. rewrite hook_mon by (apply HK; now left). apply Y. now rewrite KE.
  - pose proof (rc_struct _ _ _ _ _ _ _ _ _ _ R) as HST.
    assert (RO : rolls_on (r_env r) = true) by (unfold rolls_on; unfold counter_on in C; now destruct (defined _ _)).
    rewrite RO in HST. destruct (expected_int _ bits msg sg m0 MO HST RS) as (e & E).
    destruct (Y e E) as [_ Y2]. unfold int_at. rewrite (X sg C), Y2.
    destruct (int_obj bits sg ((sig_value sg (r_data r) + 1) mod 2 ^ s_len sg)) as (t & ->); auto; [apply SO|lia|].
    apply Z.mod_pos_bound. apply pow2_pos. lia.
Qed.

(** two successive frames *)
Lemma roll_two : forall msg bits l r1 r2 m m' sg, history msg bits m (l ++ [r1; r2]) m' -> signed_fit msg ->
  counting msg (l ++ [r1; r2]) (Some sg) -> s_signed sg = false -> hooks_keep [r1; r2] "roll_error" ->
  int_at m' (mon_path "roll_error")
  = Some (flag (negb (sig_value sg (r_data r2) =? (sig_value sg (r_data r1) + 1) mod 2 ^ s_len sg))).
Proof.
  intros msg bits l r1 r2 m m' sg H SF C US HK. apply history_app in H. destruct H as (m1 & _ & H).
  change [r1; r2] with ([r1] ++ [r2])%list in H. apply history_app in H. destruct H as (m2 & H1 & H2).
  destruct (roll_step _ _ _ _ _ sg H1 SF) as [_ E]; auto.
  { intros r [<-|[]]. apply C. apply in_or_app. right. now left. }
  { intros r [<-|[]]. apply HK. now left. }
  destruct (roll_step _ _ _ _ _ sg H2 SF) as [Y _]; auto.
  { intros r [<-|[]]. apply C. apply in_or_app. right. right. now left. }
  { intros r [<-|[]]. apply HK. right. now left. }
Qed.

(** ** Rolling counter, sender *)

Lemma sent_value : forall msg bits mx d tf hash m e rs m1 v d', sends e msg bits 0 mx d tf hash m -> g_dlc msg <= mx -> no_overlap msg ->
  counter_on (e_macros e) (e_g e) msg = Some rs -> checksum_on (e_macros e) (e_g e) msg <> Some rs ->
  converted (e_macros e) (e_g e) msg rs = false -> s_signed rs = false -> pack e msg m = Ok (m1, v) -> frame e m1 d' ->
  value m1 rs = (value m rs + 1) mod 2 ^ s_len rs /\ sig_value rs d' = (value m rs + 1) mod 2 ^ s_len rs.
Proof.
  intros msg bits mx d tf hash m e rs m1 v d' S MX NO CT CS CV US RUN F. pose proof (sends_msg _ _ _ _ _ _ _ _ _ S) as MO.
  destruct (sn_data _ _ _ _ _ _ _ _ _ S) as (_ & _ & LD). pose proof (mo_dlc _ MO) as DL. destruct (sn_max _ _ _ _ _ _ _ _ _ S) as [_ MXB].
  pose proof (counter_in _ _ _ _ CT) as I. pose proof (ok_len _ _ (mo_sigs _ MO rs I)) as LEN.
  destruct (pack_bits _ _ _ _ _ _ _ _ _ S NO) as (m' & d2 & RUN2 & P & F2 & _ & _ & C & _).
  rewrite RUN in RUN2. injection RUN2. intros _ <-. unfold frame in *. rewrite F in F2. injection F2. intros <-.
  destruct (pk_counter _ _ _ _ _ _ _ _ _ _ _ _ _ P rs CT CS CV) as [_ V]. specialize (V US). split; [exact V|].
  rewrite <- V. apply (packed_value msg); auto.
  - intros k K. pose proof (pos_in msg rs k MO I K). rewrite C by auto. unfold written. replace (_ <? _) with true by lia. now rewrite Z.bits_0.
  - rewrite US. cbn [carries]. rewrite V. apply Z.mod_pos_bound. apply pow2_pos. lia.
Qed.

Lemma value_scal : forall m m0 sg, m_scal m0 (member (s_name sg)) = m_scal m (member (s_name sg)) -> value m0 sg = value m sg.
Proof. intros m m0 sg E. unfold value, int_at. now rewrite E. Qed.

Lemma mod_step : forall a i w, 0 < w -> ((a + 1) mod w + 1 + i) mod w = (a + 1 + (1 + i)) mod w.
Proof. intros a i w W. rewrite <- Z.add_assoc, Zplus_mod_idemp_l. reflexivity. Qed.

Lemma sent_values : forall msg bits rs l m m' i t, sending msg bits rs m l m' -> no_overlap msg -> s_signed rs = false ->
  nth_error l i = Some t -> sig_value rs (t_frame t) = (value m rs + 1 + Z.of_nat i) mod 2 ^ s_len rs.
Proof.
  intros msg bits rs l. induction l as [|t0 l IH]; intros m m' i t H NO US E; [now destruct i|].
  inversion H as [|? m0 m1 ? ? ? v K S MX CT CS CV RUN F H']; subst.
  destruct (sent_value _ _ _ _ _ _ _ _ _ _ _ _ S MX NO CT CS CV US RUN F) as [V SV]. rewrite (value_scal _ _ _ K) in *.
  destruct i as [|i]; cbn [nth_error] in E.
  - injection E. intros <-. rewrite SV. f_equal. lia.
  - rewrite (IH m1 m' i t H' NO US E). rewrite V. 
    pose proof (sends_msg _ _ _ _ _ _ _ _ _ S) as MO. pose proof (ok_len _ _ (mo_sigs _ MO rs (counter_in _ _ _ _ CT))) as LEN.
    rewrite mod_step by (apply pow2_pos; lia). f_equal. lia.
Qed.

Lemma received_value : forall msg r t sg, msg_ok msg -> In sg (g_sigs msg) -> carries_frame msg r t ->
  sig_value sg (r_data r) = sig_value sg (t_frame t).
Proof.
  intros msg r t sg MO I C. pose proof (ok_len _ _ (mo_sigs _ MO sg I)) as LEN. pose proof (mo_dlc _ MO) as DL.
  unfold sig_value, decoded. rewrite (raw_value_ext _ _ _ _ (t_frame t)); [reflexivity|lia|].
  intros k K. pose proof (pos_in msg sg k MO I K). apply (payload_bit_firstn _ _ (Z.to_nat (g_dlc msg))); [exact C|lia].
Qed.

Lemma history_msg : forall msg bits r l m m', history msg bits m (r :: l) m' -> msg_ok msg.
Proof. intros msg bits r l m m' H. inversion H; subst. eapply receives_msg; eauto. Qed.

(** ** Both sides *)

Lemma mod_gap : forall a k w, 0 < w -> ((a + k + 1) mod w =? (a mod w + 1) mod w) = (k mod w =? 0).
Proof.
  intros a k w W. rewrite Zplus_mod_idemp_l.
  pose proof (Z.mod_pos_bound k w W). 
  assert (D : k = w * (k / w) + k mod w) by (apply Z.div_mod; lia).
  replace (a + k + 1) with (a + 1 + k mod w + (k / w) * w) by lia. rewrite Z_mod_plus_full.
  set (b := a + 1). set (c := k mod w) in *. 
  assert (E : (b + c) mod w = (b mod w + c) mod w) by (symmetry; apply Zplus_mod_idemp_l).
  rewrite E. pose proof (Z.mod_pos_bound b w W) as Bb. set (x := b mod w) in *. clear E D. clearbody x c b.
  destruct (Z.eqb_spec c 0) as [Z0|NZ].
  - subst c. rewrite Z.add_0_r, Z.mod_small by lia. apply Z.eqb_refl.
  - apply Z.eqb_neq. destruct (Z.ltb_spec (x + c) w).
    + rewrite Z.mod_small by lia. lia.
    + replace (x + c) with (x + c - w + 1 * w) by lia. rewrite Z_mod_plus_full, Z.mod_small by lia. lia.
Qed.

Lemma lost_frames : forall msg bits1 bits2 rs ms ts ms' m l r1 r2 m' i k t1 t2,
  sending msg bits1 rs ms ts ms' -> no_overlap msg -> s_signed rs = false ->
  history msg bits2 m (l ++ [r1; r2]) m' -> signed_fit msg -> counting msg (l ++ [r1; r2]) (Some rs) -> hooks_keep [r1; r2] "roll_error" ->
  nth_error ts i = Some t1 -> nth_error ts (i + 1 + k) = Some t2 -> carries_frame msg r1 t1 -> carries_frame msg r2 t2 ->
  int_at m' (mon_path "roll_error") = Some (flag (negb (Z.of_nat k mod 2 ^ s_len rs =? 0))).
Proof.
  intros msg bits1 bits2 rs ms ts ms' m l r1 r2 m' i k t1 t2 SE NO US H SF C HK T1 T2 F1 F2.
  rewrite (roll_two _ _ _ _ _ _ _ rs H SF C US HK).
  destruct (history_app _ _ _ _ _ _ H) as (m1 & _ & H2). pose proof (history_msg _ _ _ _ _ _ H2) as MO.
  assert (CT : roll_sig msg = Some rs).
  { specialize (C r1). eapply roll_on. apply C. apply in_or_app. right. now left. }
  pose proof (roll_in _ _ CT) as I. pose proof (ok_len _ _ (mo_sigs _ MO rs I)) as LEN.
  rewrite (received_value msg r1 t1), (received_value msg r2 t2) by auto.
  rewrite (sent_values _ _ _ _ _ _ _ _ SE NO US T1), (sent_values _ _ _ _ _ _ _ _ SE NO US T2).
  do 3 f_equal. rewrite <- (mod_gap (value ms rs + 1 + Z.of_nat i)) by (apply pow2_pos; lia).
  f_equal. f_equal. lia.
Qed.

Lemma first_frame : forall msg bits1 bits2 rs ms t ts ms' m r m' e,
  sending msg bits1 rs ms (t :: ts) ms' -> no_overlap msg -> s_signed rs = false ->
  history msg bits2 m [r] m' -> signed_fit msg -> counting msg [r] (Some rs) -> hooks_keep [r] "roll_error" ->
  carries_frame msg r t -> int_at m (expected rs) = Some e ->
  int_at m' (mon_path "roll_error") = Some (flag (negb ((value ms rs + 1) mod 2 ^ s_len rs =? e))).
Proof.
  intros msg bits1 bits2 rs ms t ts ms' m r m' e SE NO US H SF C HK F E.
  pose proof (history_msg _ _ _ _ _ _ H) as MO.
  assert (CT : roll_sig msg = Some rs) by (eapply roll_on; apply C; now left).
  destruct (roll_step _ _ _ _ _ rs H SF C US HK) as [X _]. rewrite (X e E).
  rewrite (received_value msg r t) by (auto; now apply roll_in). rewrite (sent_values _ _ _ _ _ _ 0%nat t SE NO US eq_refl).
  do 4 f_equal. f_equal. lia.
Qed.

(** all frames received in order *)
Lemma nth_forall2 : forall A B (R : A -> B -> Prop) l l' i a, Forall2 R l l' -> nth_error l i = Some a -> exists b, nth_error l' i = Some b /\ R a b.
Proof.
  intros A B R l l' i a H. revert i. induction H as [|x y l l' XY H IH]; intros [|i] E; cbn in *; try discriminate; eauto.
  injection E. intros <-. eauto.
Qed.

Lemma undisturbed : forall msg bits1 bits2 rs ms ts ms' m rsv m',
  sending msg bits1 rs ms ts ms' -> no_overlap msg -> s_signed rs = false ->
  history msg bits2 m rsv m' -> signed_fit msg -> counting msg rsv (Some rs) -> hooks_keep rsv "roll_error" ->
  Forall2 (carries_frame msg) rsv ts -> rsv <> [] ->
  ((2 <= List.length rsv)%nat \/ int_at m (expected rs) = Some ((value ms rs + 1) mod 2 ^ s_len rs)) ->
  int_at m' (mon_path "roll_error") = Some 0.
Proof.
  intros msg bits1 bits2 rs ms ts ms' m rsv m' SE NO US H SF C HK F NE START.
  destruct rsv as [|ra rsv] using rev_ind; [contradiction|]. clear IHrsv. destruct rsv as [|rb rsv] using rev_ind.
  - cbn [app] in *. destruct START as [X|X]; [cbn in X; lia|]. inversion F as [|? ? ? ? F1 F2]; subst. inversion F2; subst.
    rewrite (first_frame _ _ _ _ _ _ _ _ _ _ _ _ SE NO US H SF C HK F1 X). rewrite Z.eqb_refl. reflexivity.
  - clear IHrsv. rewrite <- app_assoc in *. cbn [app] in *.
    destruct (nth_forall2 _ _ _ _ _ (List.length rsv) rb F) as (t1 & T1 & F1).
    { rewrite nth_error_app2 by lia. now rewrite Nat.sub_diag. }
    destruct (nth_forall2 _ _ _ _ _ (List.length rsv + 1 + 0)%nat ra F) as (t2 & T2 & F2).
    { rewrite nth_error_app2 by lia. now replace (List.length rsv + 1 + 0 - List.length rsv)%nat with 1%nat by lia. }
    rewrite (lost_frames _ _ _ _ _ _ _ _ _ _ _ _ (List.length rsv) 0 t1 t2 SE NO US H SF C); auto.
    intros r I. apply HK. apply in_or_app. now right.
Qed.

(** ** Checksum *)

Lemma checksum_passes : forall e msg bits mx d tf hash m cs m1 v d', sends e msg bits 0 mx d tf hash m -> g_dlc msg <= mx -> no_overlap msg ->
  checksum_on (e_macros e) (e_g e) msg = Some cs -> s_signed cs = false -> ignores msg cs hash ->
  pack e msg m = Ok (m1, v) -> frame e m1 d' -> 0 <= hash d' mod 256 < 2 ^ s_len cs ->
  forall bits2 l r m2 m2', history msg bits2 m2 (l ++ [r]) m2' -> signed_fit msg -> summing msg [r] (Some cs) -> hooks_keep [r] "csm_error" ->
  firstn (Z.to_nat (g_dlc msg)) (r_data r) = firstn (Z.to_nat (g_dlc msg)) d' -> r_hash r = hash ->
  int_at m2' (mon_path "csm_error") = Some 0.
Proof.
  intros e msg bits mx d tf hash m cs m1 v d' S MX NO CS US IG RUN F HB bits2 l r m2 m2' H SF SU HK FN HE.
  pose proof (sends_msg _ _ _ _ _ _ _ _ _ S) as MO. pose proof (mo_dlc _ MO) as DL.
  destruct (sn_data _ _ _ _ _ _ _ _ _ S) as (OA & BY & LD). destruct (sn_max _ _ _ _ _ _ _ _ _ S) as [_ MXB].
  pose proof (checksum_in _ _ _ _ CS) as I. pose proof (mo_sigs _ MO cs I) as SO. pose proof (ok_len _ _ SO) as LEN.
  assert (L8 : s_len cs <= 8).
  { destruct (sn_csm _ _ _ _ _ _ _ _ _ S cs CS) as [_ ONE]. destruct (Z.le_gt_cases (s_len cs) 8); [assumption|exfalso].
    pose proof (ONE 8 ltac:(lia)) as X. pose proof (ONE 1 ltac:(lia)) as X1. clear - X X1 LEN. unfold sig_pos, mirror in *.
    destruct (s_order cs); lia. }
  destruct (pack_bits _ _ _ _ _ _ _ _ _ S NO) as (m' & d2 & RUN2 & P & F2 & LEN2 & BY2 & C & U).
  rewrite RUN in RUN2. injection RUN2. intros _ <-. unfold frame in *. rewrite F in F2. injection F2. intros <-.
  rewrite (written_all mx msg MX) in *.
  destruct (pk_checksum _ _ _ _ _ _ _ _ _ _ _ _ _ P cs CS) as (d0 & CO & VM & _).
  assert (LI : List.length (initialised 0 (g_dlc msg) d) = List.length d).
  { unfold initialised. rewrite app_length, repeat_length, skipn_length. lia. }
  assert (SAME : forall p, 0 <= p < 8 * g_dlc msg -> ~ sig_covers cs p -> payload_bit d0 p = payload_bit d' p).
  { intros p B N. pose proof (co_bits _ _ _ _ CO p ltac:(rewrite (co_len _ _ _ _ CO); lia)) as B0.
    pose proof (co_bits _ _ _ _ (pk_data _ _ _ _ _ _ _ _ _ _ _ _ _ P) p ltac:(rewrite LEN2; lia)) as B1.
    apply testbit_ext_iff. rewrite B0, B1. apply or_iff_compat_l. unfold set_by.
    split; intros (sg & k & I' & K & E & T); exists sg, k; (split; [exact I'|split; [exact K|split; [exact E|]]]);
      (destruct (String.eqb_spec (s_name sg) (s_name cs)) as [EQ|NE];
       [exfalso; apply N; rewrite <- (name_inj msg sg cs MO I' I EQ); exists k; auto|exact T]). }
  assert (HD : hash d0 = hash d').
  { apply IG; auto; [apply CO|rewrite (co_len _ _ _ _ CO); lia|lia]. }
  destruct (history_app _ _ _ _ _ _ H) as (m3 & _ & H2).
  assert (R : exists m0, receives (r_env r) msg bits2 (r_data r) (r_len r) (r_tick r) (r_hash r) (r_hook r) (r_phys r) m0) by (inversion H2; eauto).
  destruct R as (m0 & R). destruct (rc_data _ _ _ _ _ _ _ _ _ _ R) as (_ & RB & RL).
  assert (FB : forall p, 0 <= p < 8 * g_dlc msg -> payload_bit (r_data r) p = payload_bit d' p).
  { intros p B. apply (payload_bit_firstn _ _ (Z.to_nat (g_dlc msg))); [exact FN|lia]. }
  assert (HR : hash (r_data r) = hash d') by (apply IG; auto; lia).
  rewrite (csm_last _ _ _ _ _ _ cs H SF SU); auto; [|left; lia]. rewrite HE, HR.
  assert (SV : sig_value cs (r_data r) = hash d' mod 2 ^ s_len cs).
  { unfold sig_value, decoded. rewrite US. rewrite (raw_value_bits _ _ _ _ (value m1 cs)); [|lia|].
    - rewrite VM. now rewrite HD.
    - intros k K. pose proof (pos_in msg cs k MO I K). rewrite FB by lia. rewrite C by auto. replace (_ <? _) with true by lia. now rewrite Z.bits_0. }
  rewrite SV. replace (hash d' mod 2 ^ s_len cs) with (hash d' mod 256); [rewrite Z.eqb_refl; reflexivity|].
  assert (DV : (2 ^ s_len cs | 256)).
  { exists (2 ^ (8 - s_len cs)). rewrite <- Z.pow_add_r by lia. replace (8 - s_len cs + s_len cs) with 8 by lia. reflexivity. }
  rewrite (Znumtheory.Zmod_div_mod (2 ^ s_len cs) 256 (hash d')); [|apply pow2_pos; lia|lia|exact DV].
  symmetry. apply Z.mod_small. exact HB.
Qed.
