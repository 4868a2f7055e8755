(** Execution of emitted Pack bodies. *)

From Coq Require Import ZArith NArith List String Ascii Bool Lia ZifyBool Permutation.
From Verif Require Import Base Dbl CSyntax CSem CRun Types Formatter SigPrinter Writer Settings
  MainGen CodecSpec MsgSpec LexLemmas BitLemmas CSemLemmas Chunks UnpackProof PPProof BodyLemmas
  UnpackBody UnpackFun PackProof PackBody.
Import ListNotations.
Open Scope Z_scope.

(** ** The loop that initialises the payload *)

(** the bound of the loop evaluates to [vd] *)
Definition bound_ok (n : nat) (c : ctx) (g : gendesc) (msg : message) (vd : Z) : Prop :=
  forall m, m_arr m (c_dlc msg) = None ->
    eval n c m [] (ECall (c_val g) [EId (c_dlc msg)]) = Ok (VI U32 vd).

Lemma nth_error_split3 : forall (l : list Z) k b, nth_error l k = Some b ->
  l = (firstn k l ++ b :: skipn (S k) l)%list.
Proof.
  induction l; intros [|k] b H; try discriminate.
  - injection H as ->. reflexivity.
  - cbn [nth_error] in H. cbn [firstn List.app]. f_equal. now apply IHl.
Qed.

Lemma skipn_skipn : forall (l : list Z) a b, skipn a (skipn b l) = skipn (b + a) l.
Proof.
  induction l; intros a0 [|b]; cbn [skipn Nat.add]; auto. now rewrite skipn_nil.
Qed.

Definition filled (ini : Z) (k : nat) (d : list Z) : list Z := (repeat ini k ++ skipn k d)%list.

Lemma filled_step : forall ini k d, (k < List.length d)%nat ->
  (firstn k (filled ini k d) ++ ini :: skipn (S k) (filled ini k d))%list = filled ini (S k) d.
Proof.
  intros ini k d H. unfold filled.
  rewrite firstn_app, repeat_length, Nat.sub_diag. rewrite firstn_O, List.app_nil_r.
  rewrite firstn_all2 by (rewrite repeat_length; lia).
  rewrite skipn_app, repeat_length. rewrite (skipn_all2 (repeat ini k)) by (rewrite repeat_length; lia).
  cbn [List.app]. replace (S k - k)%nat with 1%nat by lia.
  rewrite skipn_skipn. replace (k + 1)%nat with (S k) by lia. cbn [repeat]. rewrite repeat_cons, <- List.app_assoc. reflexivity.
Qed.
Lemma filled_length : forall ini k d, (k <= List.length d)%nat ->
  List.length (filled ini k d) = List.length d.
Proof. intros. unfold filled. rewrite app_length, repeat_length, skipn_length. lia. Qed.

Definition imem (m : mem) (st : bool) (k : Z) (d : list Z) : mem :=
  set_arr (set_scal m "i" (LInt U8, VI U8 k)) (arr_text st) d.

Lemma step_exec : forall n c g st m k ini d m0, const_macro (c_macros c) (c_ini g) ini ->
  0 <= ini < 256 -> m_scal m "i" = Some (LInt U8, VI U8 k) -> 0 <= k < 255 ->
  m_arr m (arr_text st) = Some d -> k < Z.of_nat (List.length d) ->
  (forall q, q <> "i"%string -> m_scal m q = m_scal m0 q) ->
  exists m', exec_expr (S n) c m (for_step g st) = Ok m' /\
    m_scal m' "i" = Some (LInt U8, VI U8 (k + 1)) /\
    m_arr m' (arr_text st) = Some (firstn (Z.to_nat k) d ++ ini :: skipn (S (Z.to_nat k)) d)%list /\
    (forall q, q <> arr_text st -> m_arr m' q = m_arr m q) /\
    (forall q, q <> "i"%string -> m_scal m' q = m_scal m0 q).
Proof.
  intros n c g st m k ini d m0 CM IR MI KR MA KL OT.
  unfold for_step. cbn [exec_expr]. rewrite (const_eval n c m _ _ CM). cbn [bind].
  unfold assign. rewrite MI. cbn [bin_val int_op]. change (usual U8 I32) with I32.
  rewrite !(conv_id I32) by (unfold fits, ty_min, ty_max; cbn; lia).
  unfold arith. cbn [is_signed].
  replace (fits I32 (k + 1)) with true by (unfold fits, ty_min, ty_max; cbn; lia).
  cbn [bind to_int]. rewrite (conv_small U8 (k + 1)) by (auto; cbn [width]; lia).
  cbn [bind]. rewrite arr_path, m_arr_set_scal, MA.
  replace ((k <? 0) || (Z.of_nat (List.length d) <=? k)) with false by lia.
  rewrite (conv_small U8 ini) by (auto; cbn [width]; lia). cbn [bind].
  eexists. split; [reflexivity|]. split; [|split; [|split]].
  - rewrite m_scal_set_arr. apply m_scal_set_same.
  - apply m_arr_set_same.
  - intros q Q. rewrite m_arr_set_other by auto. reflexivity.
  - intros q Q. rewrite m_scal_set_arr, m_scal_set_other by auto. auto.
Qed.

Lemma loop_exec : forall n c g msg st ini vd d m0, const_macro (c_macros c) (c_ini g) ini ->
  0 <= ini < 256 -> bound_ok (S n) c g msg vd -> 0 <= vd < 256 -> vd <= Z.of_nat (List.length d) ->
  lookup "i"%string (c_macros c) = None -> c_dlc msg <> arr_text st ->
  forall j fuel m, (j <= Z.to_nat vd)%nat -> (j < fuel)%nat ->
  let k := vd - Z.of_nat j in
  m_scal m "i" = Some (LInt U8, VI U8 k) ->
  m_arr m (arr_text st) = Some (filled ini (Z.to_nat k) d) ->
  (forall q, q <> arr_text st -> m_arr m q = None) ->
  (forall q, q <> "i"%string -> m_scal m q = m_scal m0 q) ->
  exists m', exec_for fuel (S n) c m (for_cond g msg) (for_step g st)
               (fun m => do r <- exec (S n) c m SSkip; Ok (fst r)) = Ok m' /\
    m_arr m' (arr_text st) = Some (filled ini (Z.to_nat vd) d) /\
    (forall q, q <> arr_text st -> m_arr m' q = None) /\
    (forall q, q <> "i"%string -> m_scal m' q = m_scal m0 q).
Proof.
  intros n c g msg st ini vd d m0 CM IR BO VR VL NI ND.
  induction j as [|j IH]; intros fuel m JV JF k MI MA MO OT.
  - destruct fuel as [|fuel]; [lia|]. cbn [exec_for]. unfold for_cond at 1.
    rewrite eval_bin by reflexivity. rewrite (eval_var (S n) c m [] "i" _ _ eq_refl NI MI).
    rewrite BO by (apply MO; auto). cbn [bind bin_val int_op]. change (usual U8 U32) with U32.
    rewrite !conv_small by (auto; cbn [width]; lia).
    replace (k <? vd) with false by lia. cbn [vbool truth bind].
    exists m. split; [reflexivity|]. split; [|auto]. replace vd with k by lia. exact MA.
  - destruct fuel as [|fuel]; [lia|]. cbn [exec_for]. unfold for_cond at 1.
    rewrite eval_bin by reflexivity. rewrite (eval_var (S n) c m [] "i" _ _ eq_refl NI MI).
    rewrite BO by (apply MO; auto). cbn [bind bin_val int_op]. change (usual U8 U32) with U32.
    rewrite !conv_small by (auto; cbn [width]; lia).
    replace (k <? vd) with true by lia. cbn [vbool truth bind exec fst].
    change (negb (1 =? 0)) with true. cbv iota.
    destruct (step_exec n c g st m k ini (filled ini (Z.to_nat k) d) m0 CM IR MI ltac:(lia) MA)
      as (m2 & E2 & I2 & A2 & O2 & T2); auto.
    { rewrite filled_length by lia. lia. }
    rewrite E2. cbn [bind].
    destruct (IH fuel m2) as (m' & E' & P'); auto; try lia.
    + replace (vd - Z.of_nat j) with (k + 1) by lia. exact I2.
    + rewrite A2. f_equal. rewrite filled_step by lia. f_equal. lia.
    + intros q Q. rewrite O2 by auto. auto.
    + exists m'. split; auto.
Qed.

Lemma init_exec : forall n c g msg st ini vd d m, c_types c = std_types ->
  const_macro (c_macros c) (c_ini g) ini ->
  0 <= ini < 256 -> bound_ok (S n) c g msg vd -> 0 <= vd < 256 -> vd <= Z.of_nat (List.length d) ->
  lookup "i"%string (c_macros c) = None -> c_dlc msg <> arr_text st ->
  only_array m (arr_text st) d ->
  exists m', exec_list (S n) c m [s_decl_i; s_for g msg st] = Ok (m', None) /\
    only_array m' (arr_text st) (filled ini (Z.to_nat vd) d) /\
    (forall q, q <> "i"%string -> m_scal m' q = m_scal m q).
Proof.
  intros n c g msg st ini vd d m TY CM IR BO VR VL NI ND (MA & MO).
  set (m1 := set_scal m "i" (LInt U8, VI I32 0)).
  rewrite (exec_list_step (S n) c m s_decl_i m1).
  2: { unfold s_decl_i. cbn [exec]. rewrite TY. reflexivity. }
  set (m2 := set_scal m1 "i" (LInt U8, VI U8 0)).
  assert (E2 : exec_expr (S n) c m1 (EBin OAsg (EId "i") (EInt U32 0)) = Ok m2).
  { unfold exec_expr. rewrite eval_int. cbn [bind assign path]. subst m1.
    rewrite m_scal_set_same. reflexivity. }
  destruct (loop_exec n c g msg st ini vd d m CM IR BO VR VL NI ND (Z.to_nat vd) 1000 m2)
    as (m' & E' & A' & O' & T').
  - lia.
  - lia.
  - replace (vd - Z.of_nat (Z.to_nat vd)) with 0 by lia. subst m2. apply m_scal_set_same.
  - replace (vd - Z.of_nat (Z.to_nat vd)) with 0 by lia. exact MA.
  - exact MO.
  - intros q Q. subst m2 m1. now rewrite !m_scal_set_other by auto.
  - exists m'. split.
    + erewrite exec_list_step; [apply exec_list_nil|]. unfold s_for. cbn [exec]. rewrite E2. cbn [bind].
      match goal with |- context [exec_for ?f ?a ?b ?c0 ?d0 ?e ?g0] => change (exec_for f a b c0 d0 e g0) with (exec_for 1000 (S n) c m2 (for_cond g msg) (for_step g st) (fun m => do r <- exec (S n) c m SSkip; Ok (fst r))) end. rewrite E'. reflexivity.
    + split; auto. split; auto.
Qed.

(** ** Values *)

(** integer found in a member after storing [z] *)
Definition fval (bits : bool) (sg : signal) (z : Z) : Z :=
  if bits && (s_len sg <? 8) then
    if is_signed (s_typero sg) then swrap (s_len sg) (conv (s_typero sg) z)
    else uwrap (s_len sg) (conv (s_typero sg) z)
  else conv (s_typero sg) z.
Lemma to_obj_fval : forall bits sg t z,
  to_obj (field_ty bits sg) (VI t z) = Ok (stored (field_ty bits sg) (fval bits sg z)).
Proof.
  intros. unfold field_ty, fval. destruct (bits && (s_len sg <? 8)); cbn [to_obj to_int bind stored]; reflexivity.
Qed.
Lemma swrap_mod : forall w z, 1 <= w -> swrap w z mod 2 ^ w = z mod 2 ^ w.
Proof.
  intros w z W. unfold swrap. pose proof (pow2_pos w ltac:(lia)).
  destruct (_ <? _).
  - now rewrite Z.mod_mod by lia.
  - replace (z mod 2 ^ w - 2 ^ w) with (z mod 2 ^ w + (-1) * 2 ^ w) by lia.
    rewrite Z.mod_add by lia. now rewrite Z.mod_mod by lia.
Qed.
Lemma fval_mod : forall bits sg z, raw_type_ok sg -> 1 <= s_len sg ->
  fval bits sg z mod 2 ^ s_len sg = z mod 2 ^ s_len sg.
Proof.
  intros bits sg z [S W] L. unfold fval.
  assert (C : conv (s_typero sg) z mod 2 ^ s_len sg = z mod 2 ^ s_len sg) by (apply conv_mod; lia).
  pose proof (pow2_pos (s_len sg) ltac:(lia)).
  destruct (bits && _); [destruct (is_signed _)|]; auto.
  - now rewrite swrap_mod by lia.
  - unfold uwrap. now rewrite Z.mod_mod by lia.
Qed.

Definition setV (V : signal -> Z) (sg : signal) (w : Z) : signal -> Z :=
  fun s => if String.eqb (s_name s) (s_name sg) then w else V s.
Lemma setV_same : forall V sg w, setV V sg w sg = w.
Proof. intros. unfold setV. now rewrite String.eqb_refl. Qed.
Lemma setV_other : forall V sg w s, s_name s <> s_name sg -> setV V sg w s = V s.
Proof. intros. unfold setV. apply String.eqb_neq in H. now rewrite H. Qed.

(** state between the statements of a Pack body *)
Record pstate (bits : bool) (g : message) (ap : string) (m0 m : mem) (V : signal -> Z) (d : list Z)
  : Prop := {
  ps_arr : only_array m ap d;
  ps_sigs : forall sg, In sg (g_sigs g) -> holds bits m V sg;
  ps_rest : forall q, q <> "i"%string -> (forall sg, In sg (g_sigs g) -> q <> fpath (s_name sg)) ->
              m_scal m q = m_scal m0 q;
  ps_bytes : forall x, In x d -> is_byte x
}.

Lemma names_nodup : forall g, msg_ok g -> NoDup (map s_name (g_sigs g)).
Proof.
  intros g MO. pose proof (mo_names g MO) as N. unfold member_names in N.
  clear MO. induction (map s_name (g_sigs g)); [constructor|].
  cbn [List.app] in N. inversion N; subst. constructor; auto.
  intros I. apply H1. apply in_or_app. auto.
Qed.
Lemma same_name : forall sgs a b, NoDup (map s_name sgs) -> In a sgs -> In b sgs ->
  s_name a = s_name b -> a = b.
Proof.
  induction sgs as [|s r IH]; intros a b N A B E; [destruct A|].
  cbn [map] in N. inversion N as [|? ? N1 N2]; subst.
  destruct A as [->|A], B as [->|B]; auto.
  - exfalso. apply N1. rewrite E. now apply in_map.
  - exfalso. apply N1. rewrite <- E. now apply in_map.
Qed.

Lemma set_sig : forall bits g ap m0 m V d sg w, msg_ok g -> pstate bits g ap m0 m V d ->
  In sg (g_sigs g) ->
  pstate bits g ap m0 (set_scal m (fpath (s_name sg)) (field_ty bits sg, stored (field_ty bits sg) w))
    (setV V sg w) d.
Proof.
  intros bits g ap m0 m V d sg w MO PS I. constructor.
  - destruct (ps_arr _ _ _ _ _ _ _ PS). split; auto.
  - intros s S. unfold holds. destruct (string_dec (s_name s) (s_name sg)) as [E|E].
    + assert (s = sg) by (eapply same_name; eauto using names_nodup). subst s.
      rewrite setV_same. apply m_scal_set_same.
    + rewrite setV_other by auto. rewrite m_scal_set_other.
      * apply (ps_sigs _ _ _ _ _ _ _ PS s S).
      * intros X. apply fpath_inj in X. contradiction.
  - intros q QI Q. rewrite m_scal_set_other by (apply Q; auto). now apply (ps_rest _ _ _ _ _ _ _ PS).
  - apply PS.
Qed.

Lemma holds_typ : forall bits m V sg, holds bits m V sg -> typ m (fpath (s_name sg)) = Some (field_ty bits sg).
Proof. intros bits m V sg H. unfold typ. now rewrite H. Qed.

(** ** The single statements *)

Lemma inc_exec : forall n c bits g ap m0 m V d sg, msg_ok g -> pstate bits g ap m0 m V d ->
  roll_sig g = Some sg -> carries (s_signed sg) (s_len sg) (V sg) ->
  exists m', exec n c m (s_inc sg) = Ok (m', None) /\
    pstate bits g ap m0 m' (setV V sg (fval bits sg ((V sg + 1) mod 2 ^ s_len sg))) d.
Proof.
  intros n c bits g ap m0 m V d sg MO PS R CA.
  pose proof (roll_sig_in _ _ R) as I. pose proof (mo_sigs g MO sg I) as OK.
  destruct (mo_roll g MO sg R) as [LR _]. pose proof (ok_len _ _ OK) as LEN.
  pose proof (ps_sigs _ _ _ _ _ _ _ PS sg I) as H.
  pose proof H as H'. unfold holds in H'. rewrite stored_elt in H'.
  destruct (next_eval n c m (s_name sg) _ _ (V sg) (s_len sg) H') as [u E].
  - apply stored_carries_fits; auto; [apply OK|lia].
  - intros _. unfold carries in CA.
    assert (2 ^ s_len sg <= 2 ^ 30) by (apply Z.pow_le_mono_r; lia).
    assert (2 ^ (s_len sg - 1) <= 2 ^ 30) by (apply Z.pow_le_mono_r; lia).
    change (2 ^ 30) with 1073741824 in *. change (2 ^ 31) with 2147483648.
    destruct (s_signed sg); lia.
  - lia.
  - eexists. split; [|eapply set_sig; eauto].
    unfold s_inc. eapply exec_asg'; [exact Logic.I|exact Logic.I|reflexivity|eapply holds_typ; exact H|exact E|].
    apply to_obj_fval.
Qed.

Lemma csm0_exec : forall n c bits g ap m0 m V d sg, msg_ok g -> pstate bits g ap m0 m V d ->
  c_types c = std_types -> csm_sig g = Some sg ->
  exists m', exec n c m (s_csm0 sg) = Ok (m', None) /\
    pstate bits g ap m0 m' (setV V sg 0) d.
Proof.
  intros n c bits g ap m0 m V d sg MO PS TY C.
  pose proof (csm_sig_in _ _ C) as I. pose proof (mo_sigs g MO sg I) as OK.
  pose proof (ok_len _ _ OK) as LEN.
  pose proof (ps_sigs _ _ _ _ _ _ _ PS sg I) as H.
  eexists. split; [|eapply set_sig; eauto].
  unfold s_csm0. eapply exec_asg'; [exact Logic.I|exact Logic.I|reflexivity|eapply holds_typ; exact H| |].
  - rewrite eval_cast, TY, std_type, eval_int. cbn [bind to_obj to_int].
    rewrite conv_id by (unfold fits, ty_min, ty_max; destruct (s_typero sg); reflexivity). reflexivity.
  - apply store_carries; [apply OK|lia|]. unfold carries.
    pose proof (pow2_pos (s_len sg) ltac:(lia)). pose proof (pow2_pos (s_len sg - 1) ltac:(lia)).
    destruct (s_signed sg); lia.
Qed.

(** the macro of a signal turns the physical value in [m0] into [tf sg] *)
Definition toS_ok (n : nat) (c : ctx) (g : gendesc) (bits : bool) (m0 : mem) (tf : signal -> Z)
  (sg : signal) : Prop :=
  forall m, m_scal m (fpath (s_namefloat sg)) = m_scal m0 (fpath (s_namefloat sg)) ->
    m_arr m (fpath (s_namefloat sg)) = None ->
    exists w, eval n c m [] (toS_rhs g sg) = Ok w /\
      to_obj (field_ty bits sg) w = Ok (stored (field_ty bits sg) (tf sg)).

(** values after the scaled signals in [l] were converted *)
Definition convV (tf : signal -> Z) (V : signal -> Z) (l : list signal) : signal -> Z :=
  fun s => if existsb (fun t => negb (s_simple t) && String.eqb (s_name s) (s_name t)) l
           then tf s else V s.

Lemma pstate_ext : forall bits g ap m0 m V V' d, (forall sg, In sg (g_sigs g) -> V sg = V' sg) ->
  pstate bits g ap m0 m V d -> pstate bits g ap m0 m V' d.
Proof.
  intros bits g ap m0 m V V' d E []. constructor; auto.
  intros sg S. unfold holds. rewrite <- E by auto. now apply ps_sigs0.
Qed.

Lemma toS_exec : forall n c dg bits g ap m0 tf l m V d, msg_ok g -> pstate bits g ap m0 m V d ->
  incl l (g_sigs g) ->
  (forall sg, In sg l -> s_simple sg = false -> toS_ok n c dg bits m0 tf sg) ->
  (forall x, fpath x <> ap) ->
  exists m', exec_list n c m (stms (c_macros c) (toS_items dg l)) = Ok (m', None) /\
    pstate bits g ap m0 m' (convV tf V l) d.
Proof.
  intros n c dg bits g ap m0 tf. induction l as [|sg r IH]; intros m V d MO PS IN TO AP.
  { exists m. split; [reflexivity|]. eapply pstate_ext; [|exact PS]. reflexivity. }
  assert (I : In sg (g_sigs g)) by (apply IN; now left).
  cbn [toS_items]. destruct (s_simple sg) eqn:S.
  - destruct (IH m V d MO PS) as (m' & E & P); auto.
    + intros x X. apply IN. now right.
    + intros x X. apply TO. now right.
    + exists m'. split; auto. eapply pstate_ext; [|exact P].
      intros s _. unfold convV. cbn [existsb]. rewrite S. reflexivity.
  - cbn [stms List.app].
    assert (NF : forall s, In s (g_sigs g) -> fpath (s_namefloat sg) <> fpath (s_name s)).
    { intros s IS E. apply fpath_inj in E.
      pose proof (mo_names g MO) as N. unfold member_names, phys_names in N.
      assert (A : In (s_namefloat sg) (map s_namefloat (filter (fun sg => negb (s_simple sg)) (g_sigs g)))).
      { apply in_map. apply filter_In. rewrite S. auto. }
      assert (B : In (s_namefloat sg) (map s_name (g_sigs g))) by (rewrite E; now apply in_map).
      clear - N A B. induction (map s_name (g_sigs g)) as [|y l IH]; [destruct B|].
      cbn [List.app] in N. inversion N; subst. destruct B as [->|B]; auto.
      apply H1. apply in_or_app. auto. }
    destruct (TO sg (or_introl eq_refl) S m) as (w & EW & TW).
    { apply (ps_rest _ _ _ _ _ _ _ PS); [discriminate|auto]. }
    { apply (ps_arr _ _ _ _ _ _ _ PS). apply AP. }
    erewrite exec_list_step.
    2: { unfold s_toS. eapply exec_asg'; [exact Logic.I|exact Logic.I|reflexivity| |exact EW|exact TW].
         eapply holds_typ. eapply (ps_sigs _ _ _ _ _ _ _ PS); auto. }
    destruct (IH _ _ _ MO (set_sig bits g ap m0 m V d sg (tf sg) MO PS I)) as (m' & E & P); auto.
    + intros x X. apply IN. now right.
    + intros x X. apply TO. now right.
    + exists m'. split; auto. eapply pstate_ext; [|exact P].
      intros s IS. unfold convV. cbn [existsb]. rewrite S. cbn [negb andb]. unfold setV.
      destruct (String.eqb_spec (s_name s) (s_name sg)) as [E1|E1]; cbn [orb]; auto.
      assert (s = sg) by (eapply same_name; eauto using names_nodup). subst s.
      now destruct (existsb _ r).
Qed.

Lemma bytes_nth : forall (d : list Z) i b, (forall x, In x d -> is_byte x) ->
  nth_error d i = Some b -> is_byte b.
Proof. intros. apply H. eapply nth_error_In; eauto. Qed.

Lemma chunk_pos_lt : forall dlc sg ch, sig_ok dlc sg -> In ch (sig_chunks sg) ->
  k_pos ch < s_len sg.
Proof.
  intros dlc sg ch OK I. unfold sig_chunks in I.
  pose proof (ok_len _ _ OK). pose proof (chunks_spec (s_order sg) (s_start sg) (s_len sg) ch ltac:(lia) (ok_start _ _ OK) I). lia.
Qed.

Lemma or_exec : forall n c bits g st m0 m V pre b suf l, msg_ok g ->
  c_types c = std_types ->
  pstate bits g (arr_text st) m0 m V (pre ++ b :: suf) -> l <> [] ->
  (forall x, In x l -> In (fst x) (g_sigs g) /\ In (snd x) (sig_chunks (fst x))) ->
  exists m', exec n c m (s_or st (Z.of_nat (List.length pre)) l) = Ok (m', None) /\
    pstate bits g (arr_text st) m0 m' V (pre ++ Z.lor b (parts_val V l) :: suf).
Proof.
  intros n c bits g st m0 m V pre b suf l MO TY PS N PL.
  pose proof (mo_dlc g MO) as GD.
  assert (G : forall x, In x l -> good (snd x) /\ raw_type_ok (fst x) /\ k_pos (snd x) < s_len (fst x)).
  { intros x X. destruct (PL x X) as [S C]. pose proof (mo_sigs g MO _ S) as OK.
    destruct (sig_chunks_good _ _ OK ltac:(lia) _ C) as [Gd _]. split; auto. split; [apply OK|].
    eapply chunk_pos_lt; eauto. }
  destruct (eval_pall n c m bits V l N) as (w & EV & BW).
  { intros x X. destruct (G x X) as (A & B & C). split; [|split; [exact A|split; [exact C|exact B]]].
    apply (ps_sigs _ _ _ _ _ _ _ PS). apply (PL x X). }
  destruct (ps_arr _ _ _ _ _ _ _ PS) as [MA MN].
  assert (PV : 0 <= parts_val V l < 256).
  { unfold parts_val. apply por_range; [lia|]. intros x X. apply (G x X). }
  assert (BB : is_byte b) by (apply (ps_bytes _ _ _ _ _ _ _ PS); apply in_or_app; right; now left).
  unfold is_byte in BB.
  pose proof (lor_byte b (parts_val V l) BB PV) as LB.
  set (d' := (pre ++ Z.lor b (parts_val V l) :: suf)%list).
  exists (set_arr m (arr_text st) d'). split.
  - unfold s_or. cbn [exec exec_expr].
    rewrite eval_idx, eval_int. cbn [bind]. rewrite arr_path, MA. unfold read_idx.
    replace (Z.of_nat (List.length pre) <? 0) with false by lia. rewrite Nat2Z.id.
    rewrite nth_error_app2, Nat.sub_diag by lia. cbn [nth_error bind].
    rewrite eval_cast, TY, EV. change (std_types "uint8_t") with (Some (LInt U8)).
    cbn [bind to_obj to_int]. rewrite (conv_small U8 (parts_val V l)) by (auto; cbn [width]; lia).
    cbn [bin_val int_op bind]. change (usual U8 U8) with I32.
    rewrite !(conv_id I32) by (unfold fits, ty_min, ty_max; cbn; lia).
    unfold assign. destruct st; cbn [arr_expr].
    all: rewrite eval_int; cbn [bind].
    all: change (path (EFld true (EId "cframe") "Data")) with (Some (arr_text true)) || change (path (EId "_d")) with (Some (arr_text false)).
    all: cbv iota beta; rewrite MA.
    all: replace ((Z.of_nat (List.length pre) <? 0) || (Z.of_nat (List.length (pre ++ b :: suf)) <=? Z.of_nat (List.length pre)))
      with false by (rewrite app_length; cbn [List.length]; lia).
    all: cbn [to_int bind]; rewrite (conv_small U8 (Z.lor _ _)) by (auto; cbn [width]; lia).
    all: rewrite Nat2Z.id, firstn_app, Nat.sub_diag, firstn_all, firstn_O, List.app_nil_r.
    all: rewrite skipn_app, (skipn_all2 pre) by lia.
    all: replace (S (List.length pre) - List.length pre)%nat with 1%nat by lia; reflexivity.
  - constructor.
    + split; [apply m_arr_set_same|]. intros q Q. rewrite m_arr_set_other by auto. auto.
    + intros sg S. apply (ps_sigs _ _ _ _ _ _ _ PS sg S).
    + intros q QI Q. apply (ps_rest _ _ _ _ _ _ _ PS); auto.
    + intros x X. apply in_app_or in X. destruct X as [X|[<-|X]].
      * apply (ps_bytes _ _ _ _ _ _ _ PS). apply in_or_app. auto.
      * unfold is_byte. exact LB.
      * apply (ps_bytes _ _ _ _ _ _ _ PS). apply in_or_app. right. now right.
Qed.

(** the payload after all signals were OR-ed in, from byte [i] on *)
Fixpoint or_from (V : signal -> Z) (sgs : list signal) (n : nat) (i : Z) (d : list Z) : list Z :=
  match n, d with
  | S n', b :: d' => Z.lor b (parts_val V (byte_parts sgs i)) :: or_from V sgs n' (i + 1) d'
  | _, _ => d
  end.

Lemma or_from_length : forall V sgs n i d, List.length (or_from V sgs n i d) = List.length d.
Proof. induction n; intros i [|b d]; cbn [or_from List.length]; auto. Qed.
Lemma or_from_nth : forall V sgs n i d k, (k < List.length d)%nat ->
  nth k (or_from V sgs n i d) 0
  = if (k <? n)%nat then Z.lor (nth k d 0) (parts_val V (byte_parts sgs (i + Z.of_nat k)))
    else nth k d 0.
Proof.
  induction n; intros i d k K.
  - cbn [or_from]. destruct d; reflexivity.
  - destruct d as [|b d]; [cbn in K; lia|]. cbn [or_from]. destruct k as [|k].
    + cbn [nth]. replace (i + Z.of_nat 0) with i by lia. reflexivity.
    + cbn [nth]. rewrite IHn by (cbn in K; lia).
      replace (i + 1 + Z.of_nat k) with (i + Z.of_nat (S k)) by lia. reflexivity.
Qed.

Lemma bytes_exec : forall c n bits g st m0 V, msg_ok g -> c_types c = std_types ->
  forall k m pre suf, pstate bits g (arr_text st) m0 m V (pre ++ suf) ->
  (k <= List.length suf)%nat ->
  exists m', exec_list n c m (stms (c_macros c)
      (bytes_items st (g_sigs g) k (Z.of_nat (List.length pre)))) = Ok (m', None) /\
    pstate bits g (arr_text st) m0 m' V
      (pre ++ or_from V (g_sigs g) k (Z.of_nat (List.length pre)) suf).
Proof.
  intros c n bits g st m0 V MO TY. induction k as [|k IH]; intros m pre suf PS K.
  - exists m. split; [reflexivity|]. cbn [or_from]. exact PS.
  - destruct suf as [|b suf]; [cbn in K; lia|]. cbn [List.length] in K.
    cbn [bytes_items or_from].
    assert (NX : Z.of_nat (List.length pre) + 1 = Z.of_nat (List.length (pre ++ [Z.lor b
       (parts_val V (byte_parts (g_sigs g) (Z.of_nat (List.length pre))))])))
      by (rewrite app_length; cbn [List.length]; lia).
    pose proof (byte_parts_in (g_sigs g) (Z.of_nat (List.length pre))) as BI.
    destruct (byte_parts (g_sigs g) (Z.of_nat (List.length pre))) as [|x l] eqn:E.
    + cbn [parts_val por fold_left] in *. unfold parts_val, por in *. cbn [fold_left] in *.
      rewrite Z.lor_0_r in *. rewrite NX.
      destruct (IH m (pre ++ [b])%list suf) as (m' & E' & P').
      * rewrite <- List.app_assoc. exact PS.
      * lia.
      * exists m'. split; [exact E'|]. rewrite <- List.app_assoc in P'. exact P'.
    + cbn [stms List.app].
      destruct (or_exec n c bits g st m0 m V pre b suf (x :: l) MO TY PS ltac:(discriminate)) as (m1 & E1 & P1).
      { intros y Y. destruct (BI y Y) as (A & B & _). auto. }
      rewrite (exec_list_step _ _ _ _ _ _ E1). rewrite NX.
      destruct (IH m1 (pre ++ [Z.lor b (parts_val V (x :: l))])%list suf) as (m' & E' & P').
      * rewrite <- List.app_assoc. exact P1.
      * lia.
      * exists m'. split; [exact E'|]. rewrite <- List.app_assoc in P'. exact P'.
Qed.

Lemma hash_exec : forall n c bits g st m0 m V d sg hash, msg_ok g -> c_types c = std_types ->
  pstate bits g (arr_text st) m0 m V d -> csm_sig g = Some sg ->
  hash_ok n c g (arr_expr st) (arr_text st) hash ->
  m_scal m0 (g_csmmethod g) = None -> g_csmmethod g <> "i"%string ->
  exists m', exec n c m (s_hash g sg st) = Ok (m', None) /\
    pstate bits g (arr_text st) m0 m' (setV V sg (fval bits sg (hash d mod 256))) d.
Proof.
  intros n c bits g st m0 m V d sg hash MO TY PS C (NC & HA) NM NI.
  pose proof (csm_sig_in _ _ C) as I. pose proof (mo_sigs g MO sg I) as OK.
  destruct (mo_csm g MO sg C) as (IM & _).
  destruct (HA m d (ps_arr _ _ _ _ _ _ _ PS)) as [t E].
  { rewrite (ps_rest _ _ _ _ _ _ _ PS); auto. intros s S X. rewrite X in IM. cbn in IM. discriminate. }
  eexists. split; [|eapply set_sig; eauto].
  unfold s_hash. eapply exec_asg'; [exact Logic.I|exact Logic.I|reflexivity|
    eapply holds_typ; exact (ps_sigs _ _ _ _ _ _ _ PS sg I)| |apply to_obj_fval].
  rewrite eval_cast. unfold hash_call, c_dlc, c_id. rewrite E, TY.
  change (std_types "uint8_t") with (Some (LInt U8)). cbn [bind to_obj to_int].
  unfold conv. cbn [is_signed width]. unfold uwrap. reflexivity.
Qed.

(** ** The complete body *)

(** the values from which the payload is built *)
Definition V_inc (M : mtable) (g : gendesc) (msg : message) (bits : bool) (V : signal -> Z) : signal -> Z :=
  match roll_on M g msg with
  | Some rs => setV V rs (fval bits rs ((V rs + 1) mod 2 ^ s_len rs))
  | None => V
  end.
Definition V_csm0 (M : mtable) (g : gendesc) (msg : message) (V : signal -> Z) : signal -> Z :=
  match csm_on M g msg with Some cs => setV V cs 0 | None => V end.
Definition V_phys (M : mtable) (g : gendesc) (msg : message) (tf V : signal -> Z) : signal -> Z :=
  if g_hasphys msg && defined (n_usesigfloat g) M then convV tf V (g_sigs msg) else V.
Definition V_pre M g msg bits tf V := V_phys M g msg tf (V_csm0 M g msg (V_inc M g msg bits V)).

(** the payload without and with the checksum *)
Definition d_pre M g msg bits tf V ini vd d : list Z :=
  or_from (V_pre M g msg bits tf V) (g_sigs msg) (Z.to_nat (g_dlc msg)) 0 (filled ini (Z.to_nat vd) d).
Definition V_post M g msg bits tf V ini vd d (hash : list Z -> Z) : signal -> Z :=
  let V3 := V_pre M g msg bits tf V in
  match csm_on M g msg with
  | Some cs => setV V3 cs (fval bits cs (hash (d_pre M g msg bits tf V ini vd d) mod 256))
  | None => V3
  end.
Definition or_at (k : nat) (x : Z) (d : list Z) : list Z :=
  (firstn k d ++ Z.lor (nth k d 0) x :: skipn (S k) d)%list.
Definition d_post M g msg bits tf V ini vd d (hash : list Z -> Z) : list Z :=
  let d1 := d_pre M g msg bits tf V ini vd d in
  match csm_on M g msg with
  | Some cs => or_at (Z.to_nat (csm_byte cs))
                 (parts_val (V_post M g msg bits tf V ini vd d hash) (csm_parts cs)) d1
  | None => d1
  end.

(** where the function reports identifier, length and frame format *)
Definition outs (msg : message) (st : bool) : list (string * cty * Z) :=
  if st then [("cframe->MsgId", U32, g_id msg); ("cframe->DLC", U8, g_dlc msg); ("cframe->IDE", U8, g_ext msg)]%string
  else [("*_len", U8, g_dlc msg); ("*_ide", U8, g_ext msg)]%string.
Definition has_outs (msg : message) (st : bool) (m : mem) : Prop :=
  forall p t z, In (p, t, z) (outs msg st) -> typ m p = Some (LInt t).
Definition out_paths (st : bool) (q : string) : Prop :=
  In q (if st then ["cframe->MsgId"; "cframe->DLC"; "cframe->IDE"] else ["*_len"; "*_ide"])%string.

Lemma inc_stms : forall M g m, stms M (inc_items g m)
  = match roll_on M g m with Some sg => [s_inc sg] | None => [] end.
Proof.
  intros. unfold inc_items, roll_on. destruct (roll_sig m); cbn [stms]; cbv zeta;
    rewrite ?xorb_false_l; destruct (defined (n_useroll g) M); reflexivity.
Qed.
Lemma csm0_stms : forall M g m, stms M (csm0_items g m)
  = match csm_on M g m with Some sg => [s_csm0 sg] | None => [] end.
Proof.
  intros. unfold csm0_items, csm_on. destruct (csm_sig m); cbn [stms]; cbv zeta;
    rewrite ?xorb_false_l; destruct (defined (n_usecsm g) M); reflexivity.
Qed.
Lemma csm1_stms : forall M g m st, stms M (csm1_items g m st)
  = match csm_on M g m with
    | Some sg => [s_hash m sg st; s_or st (csm_byte sg) (csm_parts sg)]
    | None => []
    end.
Proof.
  intros. unfold csm1_items, csm_on. destruct (csm_sig m); cbn [stms]; cbv zeta;
    rewrite ?xorb_false_l; destruct (defined (n_usecsm g) M); reflexivity.
Qed.
Lemma toS_nodef : forall g l, nodef (toS_items g l).
Proof. induction l; cbn [toS_items nodef]; auto. destruct (s_simple a); cbn [nodef]; auto. Qed.
Lemma phys_stms : forall M g m, stms M (phys_items g m)
  = if g_hasphys m && defined (n_usesigfloat g) M then stms M (toS_items g (g_sigs m)) else [].
Proof.
  intros. unfold phys_items. destruct (g_hasphys m); auto. cbn [stms]; cbv zeta.
  rewrite ?xorb_false_l. destruct (defined (n_usesigfloat g) M); cbn [List.app andb]; [|reflexivity].
  now rewrite !List.app_nil_r.
Qed.
Lemma inc_nodef : forall g m, nodef (inc_items g m).
Proof. intros. unfold inc_items. destruct (roll_sig m); cbn [nodef]; auto. Qed.
Lemma csm0_nodef : forall g m, nodef (csm0_items g m).
Proof. intros. unfold csm0_items. destruct (csm_sig m); cbn [nodef]; auto. Qed.
Lemma csm1_nodef : forall g m st, nodef (csm1_items g m st).
Proof. intros. unfold csm1_items. destruct (csm_sig m); cbn [nodef]; auto. Qed.
Lemma phys_nodef : forall g m, nodef (phys_items g m).
Proof. intros. unfold phys_items. destruct (g_hasphys m); cbn [nodef]; auto using toS_nodef. Qed.
Lemma bytes_nodef : forall st sgs n i, nodef (bytes_items st sgs n i).
Proof. induction n; intros; cbn [bytes_items nodef]; auto. destruct (byte_parts sgs i); cbn [nodef]; auto. Qed.

Definition opt_stm {A} (o : option A) (f : A -> list stmt) : list stmt :=
  match o with Some a => f a | None => [] end.

Lemma tail_stms : forall M m st, stms M (tail_items m st)
  = ((if st then [s_cf_id m; s_cf_dlc m; s_cf_ide m] else [s_len_out m; s_ide_out m]) ++ [s_ret m])%list.
Proof. intros. destruct st; reflexivity. Qed.

Lemma pack_stms : forall M g m st, stms M (pack_items g m st)
  = ([s_decl_i; s_for g m st]
     ++ opt_stm (roll_on M g m) (fun sg => [s_inc sg])
     ++ opt_stm (csm_on M g m) (fun sg => [s_csm0 sg])
     ++ (if g_hasphys m && defined (n_usesigfloat g) M then stms M (toS_items g (g_sigs m)) else [])
     ++ stms M (bytes_items st (g_sigs m) (Z.to_nat (g_dlc m)) 0)
     ++ opt_stm (csm_on M g m) (fun sg => [s_hash m sg st; s_or st (csm_byte sg) (csm_parts sg)])
     ++ (if st then [s_cf_id m; s_cf_dlc m; s_cf_ide m] else [s_len_out m; s_ide_out m]) ++ [s_ret m])%list.
Proof.
  intros. unfold pack_items. cbn [stms List.app]. do 2 f_equal.
  rewrite stms_iapp, (act_nodef (inc_items g m)), inc_stms by apply inc_nodef. f_equal.
  rewrite stms_iapp, (act_nodef (csm0_items g m)), csm0_stms by apply csm0_nodef. f_equal.
  rewrite stms_iapp, (act_nodef (phys_items g m)), phys_stms by apply phys_nodef. f_equal.
  rewrite stms_iapp, (act_nodef (bytes_items _ _ _ _)) by apply bytes_nodef. f_equal.
  cbn [stms List.app].
  rewrite stms_iapp, (act_nodef (csm1_items g m st)), csm1_stms by apply csm1_nodef. f_equal.
  apply tail_stms.
Qed.

Lemma asg_const : forall n c m l p ty t x v, c_types c = std_types -> std_types ty = Some (LInt t) ->
  match l with EIdx _ _ => False | _ => True end -> path l = Some p -> typ m p = Some (LInt t) ->
  const_macro (c_macros c) x v -> 0 <= v < 2 ^ width t -> is_signed t = false ->
  exec (S n) c m (SExpr (EBin OAsg l (EUn (UCast ty) (EId x)))) = Ok (set_scal m p (LInt t, VI t v), None).
Proof.
  intros n c m l p ty t x v TY ST NI PL T CM V US.
  eapply exec_asg'; [exact NI|exact Logic.I|exact PL|exact T| |].
  - rewrite eval_cast, (const_eval n c m x v CM), TY, ST. cbn [bind to_obj to_int]. reflexivity.
  - cbn [to_obj to_int bind]. now rewrite !(conv_small t v) by auto.
Qed.

Lemma tail_exec : forall n c msg st m, c_types c = std_types -> id_consts (c_macros c) msg ->
  msg_ok msg -> has_outs msg st m ->
  exists m', exec_list (S n) c m
      ((if st then [s_cf_id msg; s_cf_dlc msg; s_cf_ide msg] else [s_len_out msg; s_ide_out msg]) ++ [s_ret msg])
      = Ok (m', Some (VI U32 (g_id msg))) /\
    m_arr m' = m_arr m /\
    (forall p t z, In (p, t, z) (outs msg st) -> m_scal m' p = Some (LInt t, VI t z)) /\
    (forall q, ~ out_paths st q -> m_scal m' q = m_scal m q).
Proof.
  intros n c msg st m TY IC MO HO.
  pose proof (mo_dlc _ MO) as D. pose proof (mo_id _ MO) as ID. pose proof (mo_ext _ MO) as EX.
  assert (P29 : 2 ^ 29 < 2 ^ 32) by (vm_compute; reflexivity).
  assert (RET : forall mm, exec_list (S n) c mm [s_ret msg] = Ok (mm, Some (VI U32 (g_id msg)))).
  { intros mm. rewrite exec_list_cons. unfold s_ret, c_id. cbn [exec].
    rewrite (const_eval n c mm _ _ (ic_id _ _ IC)). reflexivity. }
  destruct st; cbn [List.app].
  - pose proof (HO "cframe->MsgId"%string U32 _ (or_introl eq_refl)) as T1.
    pose proof (HO "cframe->DLC"%string U8 _ (or_intror (or_introl eq_refl))) as T2.
    pose proof (HO "cframe->IDE"%string U8 _ (or_intror (or_intror (or_introl eq_refl)))) as T3.
    erewrite exec_list_step.
    2: { unfold s_cf_id. apply (asg_const n c m (cfexp "MsgId") "cframe->MsgId" "uint32_t" U32 _ (g_id msg)); auto; try exact Logic.I; try apply IC.
         all: cbn [width]; lia. }
    set (m1 := set_scal m "cframe->MsgId" _).
    erewrite exec_list_step.
    2: { unfold s_cf_dlc. apply (asg_const n c m1 (cfexp "DLC") "cframe->DLC" "uint8_t" U8 _ (g_dlc msg)); auto; try exact Logic.I; try apply IC.
         all: cbn [width]; lia. }
    set (m2 := set_scal m1 "cframe->DLC" _).
    erewrite exec_list_step.
    2: { unfold s_cf_ide. apply (asg_const n c m2 (cfexp "IDE") "cframe->IDE" "uint8_t" U8 _ (g_ext msg)); auto; try exact Logic.I; try apply IC.
         all: cbn [width]; lia. }
    set (m3 := set_scal m2 "cframe->IDE" _).
    exists m3. split; [apply RET|]. split; [reflexivity|]. split.
    + intros p t z [E|[E|[E|[]]]]; injection E as <- <- <-; reflexivity.
    + intros q Q. unfold out_paths in Q. cbn [In] in Q.
      subst m3 m2 m1. rewrite !m_scal_set_other by intuition congruence. reflexivity.
  - pose proof (HO "*_len"%string U8 _ (or_introl eq_refl)) as T1.
    pose proof (HO "*_ide"%string U8 _ (or_intror (or_introl eq_refl))) as T2.
    erewrite exec_list_step.
    2: { unfold s_len_out. apply (asg_const n c m (EUn UDeref (EId "_len")) "*_len" "uint8_t" U8 _ (g_dlc msg)); auto; try exact Logic.I; try apply IC.
         all: cbn [width]; lia. }
    set (m1 := set_scal m "*_len" _).
    erewrite exec_list_step.
    2: { unfold s_ide_out. apply (asg_const n c m1 (EUn UDeref (EId "_ide")) "*_ide" "uint8_t" U8 _ (g_ext msg)); auto; try exact Logic.I; try apply IC.
         all: cbn [width]; lia. }
    set (m2 := set_scal m1 "*_ide" _).
    exists m2. split; [apply RET|]. split; [reflexivity|]. split.
    + intros p t z [E|[E|[]]]; injection E as <- <- <-; reflexivity.
    + intros q Q. unfold out_paths in Q. cbn [In] in Q.
      subst m2 m1. rewrite !m_scal_set_other by intuition congruence. reflexivity.
Qed.

Lemma out_not_member : forall st q x, out_paths st q -> q <> fpath x.
Proof. intros [|] q x O E; unfold out_paths in O; cbn [In] in O; subst q; intuition discriminate. Qed.
Lemma out_not_i : forall st, ~ out_paths st "i".
Proof. intros [|] O; unfold out_paths in O; cbn [In] in O; intuition discriminate. Qed.
Lemma outs_paths : forall msg st p t z, In (p, t, z) (outs msg st) -> out_paths st p.
Proof.
  intros msg [|] p t z H; unfold out_paths; cbn [outs In] in *.
  - destruct H as [H|[H|[H|[]]]]; injection H as <- _ _; auto.
  - destruct H as [H|[H|[]]]; injection H as <- _ _; auto.
Qed.

Theorem pack_exec : forall n c g msg st bits V tf ini vd d hash m,
  let M := c_macros c in
  msg_ok msg -> c_types c = std_types -> names_free M -> id_consts M msg -> csm_in8 msg ->
  (* the payload buffer is large enough, the frame struct or output parameters exist *)
  only_array m (arr_text st) d -> (forall x, In x d -> is_byte x) ->
  g_dlc msg <= Z.of_nat (List.length d) -> c_dlc msg <> arr_text st ->
  has_outs msg st m ->
  (* initial value and loop bound *)
  const_macro M (c_ini g) ini -> 0 <= ini < 256 ->
  bound_ok (S n) c g msg vd -> 0 <= vd < 256 -> vd <= Z.of_nat (List.length d) ->
  (* the struct holds the values V *)
  (forall sg, In sg (g_sigs msg) -> holds bits m V sg) ->
  (forall rs, roll_on M g msg = Some rs -> carries (s_signed rs) (s_len rs) (V rs)) ->
  (g_hasphys msg = true -> defined (n_usesigfloat g) M = true ->
   forall sg, In sg (g_sigs msg) -> s_simple sg = false -> toS_ok (S n) c g bits m tf sg) ->
  (forall cs, csm_on M g msg = Some cs ->
     csm_byte cs < Z.of_nat (List.length d) /\
     hash_ok (S n) c msg (arr_expr st) (arr_text st) hash /\
     m_scal m (g_csmmethod msg) = None /\ g_csmmethod msg <> "i"%string) ->
  exists m', exec_list (S n) c m (stms M (pack_items g msg st)) = Ok (m', Some (VI U32 (g_id msg))) /\
    only_array m' (arr_text st) (d_post M g msg bits tf V ini vd d hash) /\
    (forall sg, In sg (g_sigs msg) -> holds bits m' (V_post M g msg bits tf V ini vd d hash) sg) /\
    (forall p t z, In (p, t, z) (outs msg st) -> m_scal m' p = Some (LInt t, VI t z)) /\
    (forall q, q <> "i"%string -> ~ out_paths st q ->
       (forall sg, In sg (g_sigs msg) -> q <> fpath (s_name sg)) -> m_scal m' q = m_scal m q).
Proof.
  intros n c g msg st bits V tf ini vd d hash m M MO TY NF IC C8 AR BY DL ND HO CI IR BO VR VL HV RC TS CS.
  pose proof (mo_dlc _ MO) as GD.
  assert (AP : forall x, fpath x <> arr_text st) by (intros x; destruct st; discriminate).
  rewrite pack_stms.
  destruct (init_exec n c g msg st ini vd d m TY CI IR BO VR VL (NF "i"%string ltac:(cbn; tauto)) ND AR)
    as (m1 & E1 & A1 & T1).
  rewrite (exec_list_steps _ _ _ _ _ _ E1).
  assert (FL : List.length (filled ini (Z.to_nat vd) d) = List.length d) by (apply filled_length; lia).
  assert (P1 : pstate bits msg (arr_text st) m m1 V (filled ini (Z.to_nat vd) d)).
  { constructor; auto.
    - intros sg S. unfold holds. rewrite T1 by discriminate. apply HV; auto.
    - intros x X. unfold filled in X. apply in_app_or in X. destruct X as [X|X].
      + apply repeat_spec in X. now subst x.
      + apply BY. rewrite <- (firstn_skipn (Z.to_nat vd) d). apply in_or_app. auto. }
  (* counter *)
  assert (S2 : exists m2, exec_list (S n) c m1 (opt_stm (roll_on M g msg) (fun sg => [s_inc sg])) = Ok (m2, None) /\
     pstate bits msg (arr_text st) m m2 (V_inc M g msg bits V) (filled ini (Z.to_nat vd) d)).
  { unfold V_inc. destruct (roll_on M g msg) as [rs|] eqn:R; [|exists m1; split; auto].
    destruct (inc_exec (S n) c bits msg _ m m1 V _ rs MO P1) as (m2 & E2 & P2); auto.
    - unfold roll_on in R. destruct (defined (n_useroll g) M); [exact R|discriminate].
    - exists m2. split; auto. cbn [opt_stm]. erewrite exec_list_step; [apply exec_list_nil|exact E2]. }
  destruct S2 as (m2 & E2 & P2). rewrite (exec_list_steps _ _ _ _ _ _ E2). clear E1 E2 P1 T1 A1 m1.
  (* checksum cleared *)
  assert (S3 : exists m3, exec_list (S n) c m2 (opt_stm (csm_on M g msg) (fun sg => [s_csm0 sg])) = Ok (m3, None) /\
     pstate bits msg (arr_text st) m m3 (V_csm0 M g msg (V_inc M g msg bits V)) (filled ini (Z.to_nat vd) d)).
  { unfold V_csm0. destruct (csm_on M g msg) as [cs|] eqn:R; [|exists m2; split; auto].
    destruct (csm0_exec (S n) c bits msg _ m m2 _ _ cs MO P2 TY) as (m3 & E3 & P3).
    - unfold csm_on in R. destruct (defined (n_usecsm g) M); [exact R|discriminate].
    - exists m3. split; [|exact P3]. cbn [opt_stm]. erewrite exec_list_step; [apply exec_list_nil|exact E3]. }
  destruct S3 as (m3 & E3 & P3). rewrite (exec_list_steps _ _ _ _ _ _ E3). clear E3 P2 m2.
  (* physical values *)
  assert (S4 : exists m4, exec_list (S n) c m3
     (if g_hasphys msg && defined (n_usesigfloat g) M then stms M (toS_items g (g_sigs msg)) else []) = Ok (m4, None) /\
     pstate bits msg (arr_text st) m m4 (V_pre M g msg bits tf V) (filled ini (Z.to_nat vd) d)).
  { unfold V_pre, V_phys. destruct (g_hasphys msg && defined (n_usesigfloat g) M) eqn:R; [|exists m3; split; auto].
    apply andb_true_iff in R. destruct R as [R1 R2].
    destruct (toS_exec (S n) c g bits msg _ m tf (g_sigs msg) m3 _ _ MO P3 (incl_refl _)) as (m4 & E4 & P4); auto.
    exists m4. split; auto. }
  destruct S4 as (m4 & E4 & P4). rewrite (exec_list_steps _ _ _ _ _ _ E4). clear E4 P3 m3.
  (* payload *)
  destruct (bytes_exec c (S n) bits msg st m _ MO TY (Z.to_nat (g_dlc msg)) m4 [] _ P4 ltac:(lia))
    as (m5 & E5 & P5).
  cbn [List.length List.app] in E5, P5. change (Z.of_nat 0) with 0 in E5, P5. fold M in E5.
  rewrite (exec_list_steps _ _ _ _ _ _ E5). clear E5 P4 m4.
  fold (d_pre M g msg bits tf V ini vd d) in P5.
  assert (LD : List.length (d_pre M g msg bits tf V ini vd d) = List.length d)
    by (unfold d_pre; rewrite or_from_length; exact FL).
  (* checksum *)
  assert (S6 : exists m6, exec_list (S n) c m5
      (opt_stm (csm_on M g msg) (fun sg => [s_hash msg sg st; s_or st (csm_byte sg) (csm_parts sg)])) = Ok (m6, None) /\
     pstate bits msg (arr_text st) m m6 (V_post M g msg bits tf V ini vd d hash)
       (d_post M g msg bits tf V ini vd d hash)).
  { unfold d_post, V_post. destruct (csm_on M g msg) as [cs|] eqn:R; [|exists m5; split; auto].
    destruct (CS cs eq_refl) as (CB & HK & CN & CI2).
    assert (CG : csm_sig msg = Some cs)
      by (unfold csm_on in R; destruct (defined (n_usecsm g) M); [exact R|discriminate]).
    destruct (hash_exec (S n) c bits msg st m m5 _ _ cs hash MO TY P5 CG HK CN CI2) as (m6 & E6 & P6).
    pose proof (csm_byte_range cs) as CBR.
    set (d1 := d_pre M g msg bits tf V ini vd d) in *.
    set (k := Z.to_nat (csm_byte cs)).
    assert (NE : nth_error d1 k = Some (nth k d1 0)) by (apply nth_error_nth'; lia).
    pose proof (nth_error_split3 d1 k _ NE) as SP.
    assert (LK : List.length (firstn k d1) = k) by (apply firstn_length_le; lia).
    match type of P6 with pstate _ _ _ _ _ ?W _ =>
      assert (P6' : pstate bits msg (arr_text st) m m6 W (firstn k d1 ++ nth k d1 0 :: skipn (S k) d1))
        by (rewrite <- SP; exact P6) end.
    cbn [opt_stm]. erewrite exec_list_step; [|exact E6].
    pose proof (mo_sigs msg MO cs (csm_sig_in _ _ CG)) as OK.
    destruct (or_exec (S n) c bits msg st m m6 _ _ _ _ (csm_parts cs) MO TY P6') as (m7 & E7 & P7).
    - apply csm_parts_nonempty. eapply sig_ok_dlc; eauto.
    - intros x X. destruct (sig_parts_in _ _ _ X) as (F1 & F2 & _). rewrite F1. split; auto.
      eapply csm_sig_in; eauto.
    - rewrite LK in E7. subst k. rewrite Z2Nat.id in E7 by lia.
      exists m7. split.
      + erewrite exec_list_step; [apply exec_list_nil|exact E7].
      + exact P7. }
  destruct S6 as (m6 & E6 & P6). rewrite (exec_list_steps _ _ _ _ _ _ E6). clear E6 P5 m5.
  (* outputs *)
  assert (NM : forall q, out_paths st q -> m_scal m6 q = m_scal m q).
  { intros q Q. apply (ps_rest _ _ _ _ _ _ _ P6).
    - intros ->. now apply out_not_i in Q.
    - intros sg _. eapply out_not_member; eauto. }
  destruct (tail_exec n c msg st m6 TY IC MO) as (m7 & E7 & A7 & O7 & T7).
  { intros p t z I. unfold typ. rewrite NM by (eapply outs_paths; eauto).
    apply (HO p t z I). }
  exists m7. split; [exact E7|]. split; [|split; [|split]].
  - unfold only_array. rewrite A7. apply P6.
  - intros sg S. unfold holds. rewrite T7.
    + apply (ps_sigs _ _ _ _ _ _ _ P6 sg S).
    + intros O. eapply out_not_member; eauto.
  - exact O7.
  - intros q QI QO QS. rewrite T7 by auto. apply (ps_rest _ _ _ _ _ _ _ P6); auto.
Qed.
