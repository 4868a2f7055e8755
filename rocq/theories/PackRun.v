(** Running the emitted Pack functions. *)

From Coq Require Import ZArith NArith List String Ascii Bool Lia ZifyBool Permutation.
From Verif Require Import Base Dbl CSyntax CSem CRun Types Formatter Settings SigPrinter MainGen App LexLemmas Chunks BitLemmas
  CSemLemmas UnpackProof PPProof CodecSpec MsgSpec BodyLemmas UnpackBody UnpackFun PackProof PackBody PackFun SourceFun
  DriverSpec DriverProof.
Import ListNotations.
Open Scope Z_scope.
Ltac Zify.zify_post_hook ::= Z.to_euclidean_division_equations.

Lemma testbit_ext_iff : forall a b, (a = true <-> b = true) -> a = b.
Proof. intros [] [] H; auto; destruct H; [symmetry|]; auto. Qed.

Lemma composed_or : forall msg base V, msg_ok msg -> g_dlc msg <= Z.of_nat (List.length base) ->
  (forall x, In x base -> is_byte x) ->
  composed msg base V (or_from V (g_sigs msg) (Z.to_nat (g_dlc msg)) 0 base).
Proof.
  intros msg base V MO DL BY. pose proof (mo_dlc _ MO) as GD.
  set (d := or_from _ _ _ _ _).
  assert (LN : List.length d = List.length base) by apply or_from_length.
  assert (NT : forall k, (k < List.length base)%nat ->
    nth k d 0 = if (k <? Z.to_nat (g_dlc msg))%nat then Z.lor (nth k base 0) (parts_val V (byte_parts (g_sigs msg) (Z.of_nat k)))
                else nth k base 0).
  { intros k K. unfold d. now rewrite or_from_nth by auto. }
  constructor.
  - exact LN.
  - intros x X. apply (In_nth _ _ 0) in X. destruct X as (k & K & <-). rewrite LN in K. rewrite NT by auto.
    assert (B : is_byte (nth k base 0)) by (apply BY, nth_In; auto).
    destruct (_ <? _)%nat; auto. unfold is_byte in *. apply lor_byte; auto.
    unfold parts_val. apply por_range; [lia|]. intros y Y. apply (byte_parts_fine msg (Z.of_nat k) MO y Y).
  - intros p P. rewrite LN in P. unfold payload_bit. rewrite NT by lia.
    rewrite Z2Nat.id by lia.
    destruct (Nat.ltb_spec (Z.to_nat (p / 8)) (Z.to_nat (g_dlc msg))).
    + rewrite Z.lor_spec, orb_true_iff.
      rewrite (byte_bit V (g_dlc msg) (g_sigs msg) (p / 8) (p mod 8)) by (try lia; apply MO).
      unfold set_by. replace (8 * (p / 8) + p mod 8) with p by lia. tauto.
    + split; auto. intros [X|(sg & k & I & K & E & _)]; auto.
      pose proof (ok_in _ _ (mo_sigs _ MO sg I) k K). lia.
Qed.

Lemma nth_or_at : forall k x d j, (k < List.length d)%nat ->
  nth j (or_at k x d) 0 = if (j =? k)%nat then Z.lor (nth k d 0) x else nth j d 0.
Proof.
  intros k x d j K. unfold or_at. destruct (Nat.eqb_spec j k) as [->|N].
  - rewrite app_nth2; rewrite firstn_length_le by lia; [|lia]. now rewrite Nat.sub_diag.
  - destruct (Nat.lt_ge_cases j k).
    + rewrite app_nth1 by (rewrite firstn_length_le; lia). rewrite <- (firstn_skipn k d) at 2.
      rewrite app_nth1 by (rewrite firstn_length_le; lia). reflexivity.
    + rewrite app_nth2 by (rewrite firstn_length_le; lia). rewrite firstn_length_le by lia.
      replace (j - k)%nat with (S (j - S k)) by lia. cbn [nth].
      rewrite <- (firstn_skipn (S k) d) at 2. rewrite app_nth2 by (rewrite firstn_length_le; lia).
      now rewrite firstn_length_le by lia.
Qed.
Lemma or_at_length : forall k x d, (k < List.length d)%nat -> List.length (or_at k x d) = List.length d.
Proof. intros. unfold or_at. rewrite app_length. cbn [List.length]. rewrite firstn_length_le, skipn_length by lia. lia. Qed.

Lemma csm_byte_at : forall dlc cs, sig_ok dlc cs -> in_frame (s_order cs) (s_start cs) (s_len cs) 8 ->
  exists k, 0 <= k < s_len cs /\ sig_pos (s_order cs) (s_start cs) (s_len cs) k / 8 = csm_byte cs.
Proof.
  intros dlc cs OK F. assert (OK8 : sig_ok 8 cs) by (destruct OK; constructor; auto).
  pose proof (csm_parts_nonempty cs OK8) as N. destruct (csm_parts cs) as [|x l] eqn:E; [congruence|].
  assert (I : In x (csm_parts cs)) by (rewrite E; now left).
  destruct (sig_parts_in _ _ _ I) as (S & C & B). pose proof (ok_len _ _ OK).
  destruct (chunks_spec (s_order cs) (s_start cs) (s_len cs) (snd x) ltac:(lia) (ok_start _ _ OK) C)
      as (A1 & A2 & A3 & A4 & A5 & A6 & A7).
  exists (k_pos (snd x)). specialize (A7 0 ltac:(lia)). rewrite Z.add_0_r in A7. split; [lia|]. rewrite A7, B. lia.
Qed.

Lemma composed_at : forall msg base V d cs w, msg_ok msg -> In cs (g_sigs msg) ->
  in_frame (s_order cs) (s_start cs) (s_len cs) 8 -> g_dlc msg <= Z.of_nat (List.length d) ->
  (forall k, 0 <= k < s_len cs ->
      sig_pos (s_order cs) (s_start cs) (s_len cs) k / 8 = sig_pos (s_order cs) (s_start cs) (s_len cs) 0 / 8) ->
  V cs = 0 -> composed msg base V d ->
  composed msg base (setV V cs w)
    (or_at (Z.to_nat (csm_byte cs)) (parts_val (setV V cs w) (csm_parts cs)) d).
Proof.
  intros msg base V d cs w MO I F8 DL ONE V0 [L B C]. pose proof (mo_sigs _ MO cs I) as OK.
  pose proof (mo_dlc _ MO) as GD. pose proof (csm_byte_range cs) as CB.
  destruct (csm_byte_at _ cs OK F8) as (k0 & K0 & E0).
  pose proof (ok_in _ _ OK k0 K0) as IN0.
  assert (KL : (Z.to_nat (csm_byte cs) < List.length d)%nat) by lia.
  set (x := parts_val _ _).
  assert (XB : forall j, 0 <= j < 8 -> (Z.testbit x j = true <-> exists k, 0 <= k < s_len cs /\
     sig_pos (s_order cs) (s_start cs) (s_len cs) k = 8 * csm_byte cs + j /\ Z.testbit w k = true)).
  { intros j J. unfold x, csm_parts.
    replace (sig_parts (csm_byte cs) cs) with (byte_parts [cs] (csm_byte cs))
      by (unfold byte_parts; cbn [flat_map]; apply List.app_nil_r).
    rewrite (byte_bit _ (g_dlc msg)) by (try lia; intros s [<-|[]]; exact OK). split.
    - intros (sg & k & [<-|[]] & K & E & T). exists k. rewrite setV_same in T. auto.
    - intros (k & K & E & T). exists cs, k. rewrite setV_same. repeat split; auto; try lia. now left. }
  assert (SB : forall p, set_by msg (setV V cs w) p <-> set_by msg V p \/
     exists k, 0 <= k < s_len cs /\ sig_pos (s_order cs) (s_start cs) (s_len cs) k = p /\ Z.testbit w k = true).
  { intros p. unfold set_by. split.
    - intros (sg & k & S & K & E & T). unfold setV in T. destruct (String.eqb_spec (s_name sg) (s_name cs)) as [Q|Q].
      + right. assert (sg = cs) as -> by (eapply same_name; eauto; now apply names_nodup). exists k. auto.
      + left. exists sg, k. auto.
    - intros [(sg & k & S & K & E & T)|(k & K & E & T)].
      + exists sg, k. repeat split; auto; try lia. rewrite setV_other; auto. intros Q.
        assert (sg = cs) as -> by (eapply same_name; eauto; now apply names_nodup).
        rewrite V0, Z.bits_0 in T. discriminate.
      + exists cs, k. rewrite setV_same. repeat split; auto; lia. }
  constructor.
  - rewrite or_at_length; auto.
  - intros y Y. apply (In_nth _ _ 0) in Y. destruct Y as (k & K & <-). rewrite or_at_length in K by auto.
    rewrite nth_or_at by auto. destruct (Nat.eqb_spec k (Z.to_nat (csm_byte cs))) as [->|N]; [|apply B, nth_In; auto].
    apply lor_byte; [apply B, nth_In; auto|]. apply por_range; [lia|]. intros z Z0.
    apply (csm_parts_fine (g_dlc msg) cs OK ltac:(lia) z Z0).
  - intros p P. rewrite or_at_length in P by auto. rewrite SB. specialize (C p P).
    assert (G : payload_bit (or_at (Z.to_nat (csm_byte cs)) x d) p = true <-> payload_bit d p = true \/
       exists k, 0 <= k < s_len cs /\ sig_pos (s_order cs) (s_start cs) (s_len cs) k = p /\ Z.testbit w k = true); [|tauto].
    unfold payload_bit at 1. rewrite nth_or_at by auto.
    destruct (Nat.eqb_spec (Z.to_nat (p / 8)) (Z.to_nat (csm_byte cs))) as [Q|Q].
    + rewrite <- Q, Z.lor_spec, orb_true_iff, XB by lia.
      replace (csm_byte cs) with (p / 8) by lia. replace (8 * (p / 8) + p mod 8) with p by lia. reflexivity.
    + split; auto. intros [X|(k & K & E & T)]; auto. exfalso.
      pose proof (ONE k K). pose proof (ONE k0 K0). pose proof (ok_in _ _ OK k K). lia.
Qed.

Lemma composed_ext : forall msg base V W d, (forall sg, In sg (g_sigs msg) -> V sg = W sg) ->
  composed msg base V d -> composed msg base W d.
Proof.
  intros msg base V W d E [A B C]. constructor; auto. intros p P. rewrite (C p P).
  assert (set_by msg V p <-> set_by msg W p); [|tauto].
  unfold set_by. split; intros (sg & k & I & R); exists sg, k; (split; [exact I|]);
    [rewrite <- E by exact I|rewrite E by exact I]; exact R.
Qed.

Lemma holds_value : forall bits m V sg, holds bits m V sg -> value m sg = V sg.
Proof.
  intros bits m V sg H. unfold holds in H. unfold value, int_at. unfold member. unfold fpath in H.
  now rewrite H, stored_elt.
Qed.
Lemma value_holds : forall bits dlc m sg, sig_ok dlc sg -> has_type m (member (s_name sg)) (field_ty bits sg) ->
  holds bits m (value m) sg.
Proof.
  intros bits dlc m sg OK (v & E & T). pose proof (ok_len _ _ OK).
  destruct (obj_field bits sg v (ok_type _ _ OK) ltac:(lia) T) as (z & -> & _).
  unfold holds, value, int_at. unfold fpath. unfold member in *. rewrite E, !stored_elt. reflexivity.
Qed.

Lemma fval_u8 : forall bits sg z, raw_type_ok sg -> s_signed sg = false -> s_len sg = 8 -> 0 <= z < 256 ->
  fval bits sg z = z.
Proof.
  intros bits sg z [S W] U L R. unfold fval. rewrite L in *. change (8 <? 8) with false. rewrite andb_false_r.
  apply conv_small; [congruence|]. pose proof (Z.pow_le_mono_r 2 8 (width (s_typero sg)) ltac:(lia) W).
  change (2 ^ 8) with 256 in *. lia.
Qed.
Lemma fval_small : forall bits sg z, raw_type_ok sg -> s_signed sg = false -> 1 <= s_len sg -> 0 <= z < 2 ^ s_len sg ->
  fval bits sg z = z.
Proof.
  intros bits sg z RT U L R.
  pose proof (to_obj_fval bits sg I32 z) as F.
  rewrite (store_carries bits sg I32 z RT L) in F by (unfold carries; rewrite U; lia).
  injection F as F. rewrite !stored_elt in F. congruence.
Qed.

Lemma conv_in : forall M g msg tf V sg, msg_ok msg -> In sg (g_sigs msg) ->
  V_phys M g msg tf V sg = if converted M g msg sg then tf sg else V sg.
Proof.
  intros M g msg tf V sg MO I. unfold V_phys, converted.
  destruct (g_hasphys msg && defined (n_usesigfloat g) M); cbn [andb]; [|reflexivity].
  unfold convV. replace (existsb _ _) with (negb (s_simple sg)); [reflexivity|].
  symmetry. destruct (s_simple sg) eqn:S; cbn [negb].
  - apply not_true_iff_false. intros X. apply existsb_exists in X. destruct X as (t & T & E).
    apply andb_true_iff in E. destruct E as [E1 E2]. apply String.eqb_eq in E2.
    assert (sg = t) as <- by (eapply same_name; eauto; now apply names_nodup). now rewrite S in E1.
  - apply existsb_exists. exists sg. split; auto. now rewrite S, String.eqb_refl.
Qed.

Lemma to_toS : forall n c g bits m tf sg dlc, sig_ok dlc sg -> to_raw n c g bits m tf sg -> toS_ok n c g bits m tf sg.
Proof.
  intros n c g bits m tf sg dlc OK T m1 E A. destruct (T m1 E A) as (w & t & EV & TO).
  exists w. split; [exact EV|].
  pose proof (to_obj_twice _ _ _ (field_lty bits dlc sg OK) TO) as TT. pose proof (ok_len _ _ OK).
  destruct (obj_field bits sg _ (ok_type _ _ OK) ltac:(lia) TT) as (z & Z0 & _).
  rewrite TO. f_equal. rewrite stored_elt in *. congruence.
Qed.

Lemma dlc_not_buffer : forall msg st, is_ident (g_name msg) = true -> c_dlc msg <> arr_text st.
Proof.
  intros msg st ID E. unfold c_dlc in E.
  assert (H : is_ident (g_name msg ++ "_DLC") = true) by now apply ident_prefix.
  rewrite E in H. destruct st; [discriminate|]. cbn in E.
  apply (f_equal String.length) in E. rewrite app_len in E. cbn [String.length] in E. lia.
Qed.

Lemma app_nodup_disjoint : forall (a b : list string), NoDup (a ++ b) -> forall x, In x a -> ~ In x b.
Proof.
  induction a as [|y a IH]; intros b N x I J; [destruct I|]. cbn [List.app] in N.
  apply NoDup_cons_iff in N. destruct N as [N1 N2]. destruct I as [->|I].
  - apply N1. apply in_or_app. auto.
  - eapply IH; eauto.
Qed.

Theorem pack_run : forall n drv g d0 h src M user calls msg bits ini vd d tf hash m,
  driver drv g d0 h src -> In msg (d_msgs d0) -> g_notempty msg = true ->
  let u := compile M src in
  let U := u_macros u in
  let c := unit_ctx n u user calls in
  let st := defined (n_usestruct g) U in
  locals_free U -> id_consts U msg -> csm_plain U g msg ->
  pack_env (S n) c g msg st bits ini vd d tf hash m ->
  exists m' d', run_fun (S n) c (u_funs u) (pack_name drv msg) m = Ok (m', Some (VI U32 (g_id msg))) /\
    packed U g msg st bits ini vd d tf hash m m' d'.
Proof.
  intros n drv g d0 h src M user calls msg bits ini vd d tf hash m DR IM NE u U c st LF IC CP PE.
  destruct (driver_unit drv g d0 h src M DR) as (ms & coreh & PM & SO & NO & EO & ND & CU).
  assert (IMS : In msg ms) by (eapply Permutation_in; [apply Permutation_sym; eauto|auto]).
  pose proof (eo_msg _ (EO _ IMS)) as MO. pose proof (eo_csm _ (EO _ IMS)) as C8. pose proof (mo_dlc _ MO) as GD.
  assert (UM : U = with_defaults M) by (subst U u; rewrite CU; reflexivity).
  assert (UF : u_funs u = ext_def :: flat_map (msg_defs (with_defaults M) g) ms) by (subst u; rewrite CU; reflexivity).
  destruct PE as [(AR & BY & DL) RP (INI & IR) (VR & VL & BO) HS RC TS HA].
  change (c_macros c) with U in *.
  assert (CI : forall cs, csm_on U g msg = Some cs -> csm_sig msg = Some cs).
  { intros cs X. unfold csm_on in X. now destruct (defined (n_usecsm g) U). }
  assert (RI : forall cs, roll_on U g msg = Some cs -> roll_sig msg = Some cs).
  { intros cs X. unfold roll_on in X. now destruct (defined (n_useroll g) U). }
  destruct (pack_exec n c g msg st bits (value m) tf ini vd d hash m) as (m' & E & A' & H' & O' & R'); auto.
  { now apply dlc_not_buffer, MO. }
  { intros p t z I. destruct (RP p t z I) as (v & X). unfold typ. now rewrite X. }
  { intros sg I. eapply value_holds; [now apply MO|]. now apply (hs_sigs _ _ _ _ _ HS). }
  { intros HP SF sg I S. eapply to_toS; [now apply (mo_sigs _ MO)|]. apply TS; auto.
    unfold converted. change (c_macros c) with U in SF. now rewrite HP, SF, S. }
  { intros cs X. change (c_macros c) with U in X. split.
    - destruct (csm_byte_at (g_dlc msg) cs) as (k & K & Q); [apply MO, csm_in; auto|apply C8; auto|].
      pose proof (ok_in _ _ (mo_sigs _ MO cs (csm_in _ _ (CI _ X))) k K). lia.
    - apply HA. change (checksum_on U g msg) with (csm_on U g msg). congruence. }
  change (c_macros c) with U in *.
  set (V := value m) in *. set (W := V_post U g msg bits tf V ini vd d hash) in *.
  set (d1 := d_pre U g msg bits tf V ini vd d) in *. set (d' := d_post U g msg bits tf V ini vd d hash) in *.
  assert (VW : forall sg, In sg (g_sigs msg) -> value m' sg = W sg).
  { intros sg I. apply (holds_value bits). now apply H'. }
  assert (BF : forall x, In x (initialised ini vd d) -> is_byte x).
  { intros x X. unfold initialised in X. apply in_app_or in X. destruct X as [X|X].
    - apply repeat_spec in X. subst x. exact IR.
    - apply BY. rewrite <- (firstn_skipn (Z.to_nat vd) d). apply in_or_app. auto. }
  assert (LF1 : List.length (initialised ini vd d) = List.length d) by (apply filled_length; lia).
  assert (C1 : composed msg (initialised ini vd d) (V_pre U g msg bits tf V) d1).
  { apply composed_or; auto. lia. }
  exists m', d'. split.
  { change (pack_name drv msg) with ("Pack_" ++ g_name msg ++ "_" ++ drv)%string. rewrite <- NO.
    change ("Pack_" ++ g_name msg ++ "_" ++ n_orig g)%string with (pa_name g msg). rewrite UF.
    rewrite (pack_found (S n) c (with_defaults M) g coreh ms msg m SO IMS NE ND (EO _ IMS)).
    rewrite <- UM. exact E. }
  assert (WN : forall sg, In sg (g_sigs msg) -> csm_on U g msg <> Some sg ->
     W sg = if converted U g msg sg then tf sg else V_inc U g msg bits V sg).
  { intros sg I NC. unfold W, V_post.
    destruct (csm_on U g msg) as [cs|] eqn:X.
    - assert (NN : s_name sg <> s_name cs).
      { intros Q. apply NC. f_equal. symmetry. eapply same_name; eauto; [now apply names_nodup|]. apply csm_in; auto. }
      rewrite setV_other by auto. unfold V_pre. rewrite conv_in by auto. unfold V_csm0. rewrite X.
      now rewrite setV_other by auto.
    - unfold V_pre. rewrite conv_in by auto. unfold V_csm0. now rewrite X. }
  constructor.
  - exact A'.
  - apply composed_ext with W; [intros; symmetry; now apply VW|].
    unfold d', d_post. unfold W, V_post. fold d1.
    destruct (csm_on U g msg) as [cs|] eqn:X; [|exact C1].
    destruct (CP cs X) as [NC ONE]. apply composed_at; auto.
    + apply csm_in; auto.
    + destruct C1 as [L1 _ _]. rewrite L1, LF1. exact DL.
    + unfold V_pre. rewrite conv_in by (auto; apply csm_in; auto). rewrite NC. unfold V_csm0. now rewrite X, setV_same.
  - exact O'.
  - intros sg I NR NC CV. rewrite VW, WN, CV by auto. unfold V_inc.
    change (counter_on U g msg) with (roll_on U g msg) in NR.
    destruct (roll_on U g msg) as [rs|] eqn:X; [|reflexivity]. rewrite setV_other; [reflexivity|].
    intros Q. apply NR. f_equal. symmetry. eapply same_name; eauto; [now apply names_nodup|]. apply roll_in; auto.
  - intros sg I NC CV. rewrite VW, WN, CV by auto. reflexivity.
  - intros rs X NC CV. assert (I : In rs (g_sigs msg)) by (apply roll_in; auto).
    rewrite VW, WN, CV by auto. unfold V_inc. change (counter_on U g msg) with (roll_on U g msg) in X. rewrite X, setV_same.
    pose proof (mo_sigs _ MO rs I) as OK. pose proof (ok_len _ _ OK).
    assert (0 < 2 ^ s_len rs) by (apply pow2_pos; lia).
    pose proof (Z.mod_pos_bound (V rs + 1) (2 ^ s_len rs) ltac:(lia)).
    split.
    + rewrite fval_mod by (try apply OK; lia). now rewrite Z.mod_mod by lia.
    + intros S. rewrite fval_small; auto; [apply OK|lia].
  - intros cs X. change (checksum_on U g msg) with (csm_on U g msg) in X.
    destruct (CP cs X) as [NC ONE]. assert (I : In cs (g_sigs msg)) by (apply csm_in; auto).
    pose proof (mo_sigs _ MO cs I) as OK. pose proof (ok_len _ _ OK) as LEN.
    assert (L8 : s_len cs <= 8).
    { pose proof (ONE (s_len cs - 1) ltac:(lia)) as O. unfold sig_pos, mirror in O. destruct (s_order cs); lia. }
    exists d1. split.
    + apply composed_ext with (2 := C1). intros sg S. destruct (String.eqb_spec (s_name sg) (s_name cs)) as [Q|Q].
      * assert (sg = cs) as -> by (eapply same_name; eauto; now apply names_nodup).
        unfold V_pre. rewrite conv_in by auto. rewrite NC. unfold V_csm0. now rewrite X, setV_same.
      * rewrite VW by auto. unfold W, V_post. rewrite X. now rewrite setV_other by auto.
    + rewrite VW by auto. unfold W, V_post. rewrite X, setV_same. split.
      * fold d1. rewrite fval_mod by (try apply OK; lia).
        replace 256 with (2 ^ s_len cs * 2 ^ (8 - s_len cs)) by (rewrite <- Z.pow_add_r by lia; replace (s_len cs + (8 - s_len cs)) with 8 by lia; reflexivity).
        assert (0 < 2 ^ s_len cs) by (apply pow2_pos; lia). assert (0 < 2 ^ (8 - s_len cs)) by (apply pow2_pos; lia).
        rewrite Z.rem_mul_r by lia. rewrite (Z.mul_comm (2 ^ s_len cs)), Z.mod_add, Z.mod_mod by lia. reflexivity.
      * intros S L. fold d1. apply fval_u8; auto; [apply OK|]. apply Z.mod_pos_bound. lia.
  - assert (HT : forall sg, In sg (g_sigs msg) -> has_type m' (member (s_name sg)) (field_ty bits sg)).
    { intros sg I. pose proof (H' sg I) as H. eexists. split; [exact H|].
      pose proof (mo_sigs _ MO sg I) as OK. pose proof (field_lty bits _ _ OK) as LO.
      assert (FV : forall z, to_obj (field_ty bits sg) (stored (field_ty bits sg) (fval bits sg z))
                             = Ok (stored (field_ty bits sg) (fval bits sg z))).
      { intros z. eapply to_obj_twice; [exact LO|apply (to_obj_fval bits sg I32 z)]. }
      assert (CA : csm_on U g msg = Some sg \/ csm_on U g msg <> Some sg).
      { destruct (csm_on U g msg) as [cs|]; [|right; discriminate].
        destruct (String.eqb_spec (s_name sg) (s_name cs)) as [Q|Q].
        - left. f_equal. symmetry. eapply same_name; eauto; [now apply names_nodup|apply csm_in; auto].
        - right. congruence. }
      destruct CA as [X|X].
      - unfold W, V_post. rewrite X, setV_same. apply FV.
      - rewrite WN by auto. destruct (converted U g msg sg) eqn:CV.
        + destruct (TS sg I CV m eq_refl) as (w & t & _ & TO); [apply AR; destruct st; discriminate|].
          pose proof (to_obj_twice _ _ _ LO TO) as TT. pose proof (ok_len _ _ OK).
          destruct (obj_field bits sg _ (ok_type _ _ OK) ltac:(lia) TT) as (z & Z0 & _).
          rewrite stored_elt in Z0. rewrite stored_elt. assert (TE : t = elt bits sg) by congruence. rewrite TE in TT. exact TT.
        + unfold V_inc. assert (VV : to_obj (field_ty bits sg) (stored (field_ty bits sg) (V sg))
                                     = Ok (stored (field_ty bits sg) (V sg))).
          { destruct (hs_sigs _ _ _ _ _ HS sg I) as (v & EV & TV).
            assert (HH : holds bits m V sg) by (eapply value_holds; [exact OK|now exists v]).
            unfold holds in HH. unfold fpath in HH. unfold member in EV. rewrite EV in HH. injection HH as HH. congruence. }
          destruct (roll_on U g msg) as [rs|] eqn:XR; [|exact VV].
          unfold setV. destruct (String.eqb_spec (s_name sg) (s_name rs)) as [Q|Q]; [|exact VV].
          assert (sg = rs) as <- by (eapply same_name; eauto; [now apply names_nodup|apply roll_in; auto]). apply FV. }
    constructor; auto.
    + intros SF sg I S. eapply has_type_eq; [|apply (hs_phys _ _ _ _ _ HS SF sg I S)]. apply R'; [discriminate| |].
      * destruct st; cbn; intuition discriminate.
      * intros s IS Q. apply path_inj in Q.
        pose proof (mo_names _ MO) as N. unfold member_names in N.
        apply (app_nodup_disjoint _ _ N (s_name s)); [now apply in_map|]. rewrite <- Q. unfold phys_names.
        apply in_map. apply filter_In. split; auto. now rewrite S.
    + intros UR sg R. eapply has_type_eq; [|apply (hs_expt _ _ _ _ _ HS UR sg R)]. apply R'; [discriminate| |].
      * destruct st; cbn; intuition discriminate.
      * intros s IS Q. apply path_inj in Q. destruct (mo_roll _ MO sg R) as [_ N]. apply N. rewrite Q.
        unfold member_names. apply in_or_app. left. now apply in_map.
  - intros q Q1 Q2 Q3. apply R'; auto. intros X. unfold out_paths, reports in *. destruct st; cbn in X.
    + destruct X as [<-|[<-|[<-|[]]]]; [apply (Q2 U32 (g_id msg))|apply (Q2 U8 (g_dlc msg))|apply (Q2 U8 (g_ext msg))]; cbn; auto.
    + destruct X as [<-|[<-|[]]]; [apply (Q2 U8 (g_dlc msg))|apply (Q2 U8 (g_ext msg))]; cbn; auto.
Qed.
