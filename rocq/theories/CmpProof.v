(** Comparisons of members with the macros of value tables. *)

From Coq Require Import ZArith NArith List String Ascii Bool Lia ZifyBool Permutation.
From Verif Require Import Base Dbl CSyntax CSem CRun Types Formatter Settings MainGen LineParser Scanner App CodecSpec MsgSpec LexLemmas BitLemmas CSemLemmas PPProof DriverSpec
  UnpackFun DriverProof HeaderSpec HeaderProof HeaderRun HeaderTables ScanSpec ScanThms ScanMarks SigSpec NamesSpec NamesThms CodecEnv CodecThms DeclSpec DeclThms CmpSpec.
Import ListNotations.
Open Scope string_scope.
Open Scope Z_scope.

(** the macro of an entry with the type of its value: -2147483648 is the only one that is no int *)
Lemma define_typed : forall x z, is_ident x = true -> (- 2 ^ 31 <= z < 2 ^ 31)%Z ->
  exists b e, snd (pp_define (x ++ " (" ++ decZ z ++ ")")) = {| m_params := None; m_body := b |} /\ parse_expr_toks b = Some e /\
    forall n c m loc, eval n c m loc e = Ok (VI (if (z =? - 2 ^ 31)%Z then I64 else I32) z).
Proof.
  intros x z I Z. unfold pp_define. rewrite span_ident; [|now apply ident_chars|reflexivity].
  cbn [append]. cbv iota beta.
  change (String " " (String "(" (decZ z ++ ")"))) with (" (" ++ decZ z ++ ")").
  destruct (Z.ltb_spec z 0).
  - rewrite lex_paren_neg by lia. eexists _, _. split; [reflexivity|]. split; [reflexivity|]. intros n c m loc.
    destruct (- z <? 2 ^ 31)%Z eqn:L.
    + replace (z =? - 2 ^ 31) with false by lia. assert (X : un_val UNeg (VI I32 (- z)) = Ok (VI I32 z)).
      { unfold un_val, arith. change (promote I32) with I32. rewrite conv_id by (unfold CSem.fits; cbn; lia).
        replace (- - z)%Z with z by lia. change (is_signed I32) with true. replace (CSem.fits I32 z) with true by (unfold CSem.fits; cbn; lia). reflexivity. }
      destruct n; exact X.
    + assert (z = - 2 ^ 31)%Z as -> by lia. destruct n; reflexivity.
  - rewrite lex_paren_pos by lia. replace (z =? - 2 ^ 31) with false by lia. eexists _, _. split; [reflexivity|]. split; [reflexivity|]. intros n c m loc. destruct n; reflexivity.
Qed.
Lemma table_typed : forall drv g d h c conf msg sg t v, driver drv g d h c -> header_ok d -> In msg (d_msgs d) ->
  g_notempty msg = true -> In sg (g_sigs msg) -> In (t, v) (s_valdefs sg) ->
  let x := (s_name sg ++ "_" ++ g_name msg ++ "_" ++ t)%string in let z := swrap 32 v in
  once x h -> lookup x conf = None -> exists b e, lookup x (after_header conf h) = Some {| m_params := None; m_body := b |} /\ parse_expr_toks b = Some e /\
    forall n c m loc, eval n c m loc e = Ok (VI (if (z =? - 2 ^ 31)%Z then I64 else I32) z).
Proof.
  intros drv g d h c conf msg sg t v DR HO IM NE IS IV x z O LK.
  destruct (driver_header _ _ _ _ _ DR HO) as (HD & ps & ms & -> & PM & CN).
  assert (MO : msg_ok msg) by (apply (dr_msgs _ _ _ _ _ DR _ IM)).
  assert (IMS : In msg ms) by (eapply Permutation_in; [apply Permutation_sym; eauto|auto]).
  destruct (hs_table _ (ho_sigs _ HO _ _ IM IS) _ _ IV) as [TI TL].
  assert (SO : sig_ok (g_dlc msg) sg) by now apply (MsgSpec.mo_sigs _ MO).
  assert (ID : is_ident x = true) by (apply table_ident; auto; [apply SO|apply MO]).
  pose proof (swrap_in v) as SW. fold z in SW.
  pose proof (proj1 (define_signed x z ID ltac:(lia))) as E. destruct (define_typed x z ID ltac:(lia)) as (b & e & B1 & B2 & B3).
  exists b, e. split; [|auto]. rewrite <- B1.
  assert (F : lookup x (after_header conf (sconcat ps))
    = match lookup x conf with Some mc => Some mc | None => Some (snd (pp_define (x ++ " (" ++ decZ z ++ ")"))) end).
  { apply (found_guarded conf ps _ [] "#endif" _ _ (cn_table _ _ _ _ CN msg sg (t, v) IMS NE IS IV)); auto.
    - apply (table_part msg sg (t, v) MO SO (ho_sigs _ HO _ _ IM IS) IV).
    - apply ident_head; auto.
    - apply bal_nil. }
  now rewrite F, LK.
Qed.

Lemma swrap_bounds : forall w z, 0 < w -> - 2 ^ (w - 1) <= swrap w z < 2 ^ (w - 1).
Proof.
  intros w z W. unfold swrap. cbv zeta. assert (E : 2 ^ w = 2 * 2 ^ (w - 1)) by (rewrite <- Z.pow_succ_r by lia; f_equal; lia).
  assert (0 < 2 ^ (w - 1)) by (apply Z.pow_pos_nonneg; lia). pose proof (Z.mod_pos_bound z (2 ^ w) ltac:(lia)). destruct (_ <? _) eqn:L; lia.
Qed.
(** what a member can hold *)
Lemma member_value : forall bits d mm p z, (1 <= sd_len d <= 64)%N -> has_type mm p (field_object bits d) -> int_at mm p = Some z ->
  exists t, m_scal mm p = Some (field_object bits d, VI t z) /\ CSem.fits t z = true /\ (t = field_type d \/ t = I32 /\ - 2 ^ 7 <= z < 2 ^ 7 /\ (sd_signed d = false -> 0 <= z)).
Proof.
  intros bits d mm p z L (v & S & T) A. unfold int_at in A. rewrite S in A. destruct v as [t u|]; [|discriminate]. injection A as ->. exists t. split; [exact S|].
  unfold field_object in T. destruct (bits && (sd_len d <? 8)%N) eqn:B.
  - assert (W : (sd_len d < 8)%N) by lia. cbn [to_obj to_int bind] in T. unfold field_type in T. replace (sd_len d <=? 8)%N with true in T by lia.
    destruct (sd_signed d); cbn [is_signed orb] in T.
    + injection T as <- T. pose proof (swrap_bounds (Z.of_N (sd_len d)) (conv I8 z) ltac:(lia)) as X. rewrite T in X.
      assert (2 ^ (Z.of_N (sd_len d) - 1) <= 2 ^ 7) by (apply Z.pow_le_mono_r; lia). split; [unfold CSem.fits; cbn; lia|]. right. split; [reflexivity|]. split; [lia|discriminate].
    + replace (Z.of_N (sd_len d) <? 32) with true in T by lia. injection T as <- T. unfold uwrap in T.
      assert (0 < 2 ^ Z.of_N (sd_len d)) by (apply Z.pow_pos_nonneg; lia). pose proof (Z.mod_pos_bound (conv U8 z) (2 ^ Z.of_N (sd_len d)) ltac:(lia)) as X. rewrite T in X.
      assert (2 ^ Z.of_N (sd_len d) <= 2 ^ 7) by (apply Z.pow_le_mono_r; lia). split; [unfold CSem.fits; cbn; lia|]. right. split; [reflexivity|]. split; lia.
  - cbn [to_obj to_int bind] in T. injection T as <- T. split; [|now left]. rewrite <- T. apply fits_conv.
Qed.

Lemma type_cases : forall d, (sd_len d <= 64)%N ->
  if sd_signed d then In (field_type d) [I8; I16; I32; I64] else In (field_type d) [U8; U16; U32; U64] /\ ((sd_len d <= 32)%N -> field_type d <> U64).
Proof. intros d L. unfold field_type. destruct (sd_signed d), (sd_len d <=? 8)%N eqn:A, (sd_len d <=? 16)%N eqn:B, (sd_len d <=? 32)%N eqn:C; cbn; try split; auto 6; try discriminate; lia. Qed.
Lemma entry_value : forall w, - 2 ^ 31 <= w < 2 ^ 32 -> swrap 32 (w mod 2 ^ 32) = if (w <? 2 ^ 31) then w else w - 2 ^ 32.
Proof.
  intros w W. unfold swrap. cbv zeta. rewrite Z.mod_mod by lia. destruct (Z.ltb_spec w 0).
  - assert (M : w mod 2 ^ 32 = w + 2 ^ 32) by (rewrite <- (Z_mod_plus_full w 1), Z.mod_small by lia; lia). rewrite M. change (2 ^ (32 - 1)) with (2 ^ 31). destruct (w + 2 ^ 32 <? 2 ^ 31) eqn:A, (w <? 2 ^ 31) eqn:B; lia.
  - rewrite Z.mod_small by lia. change (2 ^ (32 - 1)) with (2 ^ 31). reflexivity.
Qed.
Lemma equal_as : forall t z tm v, CSem.fits (usual t tm) z = true -> CSem.fits (usual t tm) v = true -> bin_val OEq (VI t z) (VI tm v) = Ok (vbool (z =? v)).
Proof. intros t z tm v A B. cbn [bin_val]. unfold int_op. cbv zeta. now rewrite !conv_id by assumption. Qed.
Lemma compare_values : forall d t z w, (1 <= sd_len d <= 64)%N -> CSem.fits t z = true ->
  (t = field_type d \/ t = I32 /\ - 2 ^ 7 <= z < 2 ^ 7 /\ (sd_signed d = false -> 0 <= z)) -> comparable d w ->
  let v := swrap 32 (w mod 2 ^ 32) in bin_val OEq (VI t z) (VI (if v =? - 2 ^ 31 then I64 else I32) v) = Ok (vbool (z =? w)).
Proof.
  intros d t z w L F T C v. assert (R : - 2 ^ 31 <= w < 2 ^ 32) by (unfold comparable in C; lia). subst v. rewrite (entry_value w R).
  pose proof (type_cases d ltac:(lia)) as K. unfold comparable in C. destruct C as [C|[[S C]|(S & L32 & C)]].
  - replace (w <? 2 ^ 31) with true by lia. replace (w =? - 2 ^ 31) with false by lia.
    assert (X : In t [I8; I16; I32; I64; U8; U16; U32; U64]) by (destruct t; cbn; auto 9).
    apply equal_as; repeat destruct X as [<-|X]; try contradiction; cbn in F |- *; unfold CSem.fits in *; cbn in *; lia.
  - rewrite S in K. replace (w <? 2 ^ 31) with true by lia.
    assert (X : In t [I8; I16; I32; I64]) by (destruct T as [->|[-> _]]; [exact K|cbn; auto]).
    apply equal_as; destruct (w =? - 2 ^ 31); repeat destruct X as [<-|X]; try contradiction; unfold CSem.fits in *; cbn in *; lia.
  - rewrite S in K. destruct K as [K K2]. specialize (K2 L32). replace (w <? 2 ^ 31) with false by lia. replace (w - 2 ^ 32 =? - 2 ^ 31) with false by lia.
    assert (X : In t [I32; U8; U16; U32]) by (destruct T as [->|[-> _]]; [|now left]; repeat destruct K as [K|K]; try contradiction; rewrite <- K in *; cbn; auto; congruence).
    assert (Z0 : 0 <= z).
    { destruct T as [->|(_ & _ & Y)]; [|now apply Y]. repeat destruct K as [K|K]; try contradiction; rewrite <- K in F; unfold CSem.fits in F; cbn in F; lia. }
    destruct (Z.eq_dec 0 0) as [_|]; [|congruence].
    assert (U : t = U32 \/ t <> U32) by (destruct t; auto; right; discriminate). destruct U as [->|U].
    + cbn [bin_val]. unfold int_op. cbv zeta. change (usual U32 I32) with U32. rewrite (conv_id U32 z) by exact F.
      replace (conv U32 (w - 2 ^ 32)) with w; [reflexivity|]. unfold conv. cbn [is_signed width]. unfold uwrap. rewrite <- (Z_mod_plus_full (w - 2 ^ 32) 1), Z.mod_small by lia. lia.
    + assert (Y : bin_val OEq (VI t z) (VI I32 (w - 2 ^ 32)) = Ok (vbool (z =? w - 2 ^ 32))).
      { apply equal_as; repeat destruct X as [<-|X]; try contradiction; try congruence; unfold CSem.fits in *; cbn in *; lia. }
      rewrite Y. replace (z =? w - 2 ^ 32) with false by lia. replace (z =? w) with false; [reflexivity|].
      repeat destruct X as [<-|X]; try contradiction; try congruence; unfold CSem.fits in F; cbn in F; lia.
Qed.

Lemma table_macro : forall srt bs e es md d w desc, project srt bs e -> read_entries srt (file_text bs) (e_db e) es ->
  In md (file_msgs bs) -> In d (md_sigs md) -> unscaled d -> table_entry es md d w desc ->
  lookup (entry_macro_name md d desc) (e_conf e) = None ->
  forall n C mm, c_macros C = after_header (e_conf e) (e_h e) ->
  eval (S n) C mm [] (EId (entry_macro_name md d desc)) = Ok (VI (if swrap 32 (w mod 2 ^ 32) =? - 2 ^ 31 then I64 else I32) (swrap 32 (w mod 2 ^ 32))).
Proof.
  intros srt bs e es md d w desc P R IM ID US (a & v & b & E & IV & LAST) LK n C mm EM.
  destruct (project_msg srt bs e md P IM ltac:(intros X; rewrite X in ID; contradiction)) as (m & J & SC & NE).
  destruct (decl_of_sig md m SC d ID) as (s & IS & RA). destruct (ra_plain _ _ RA US) as (SI & SN & _).
  pose proof (vals_set _ _ _ _ _ _ _ _ _ _ _ R E LAST J (rm_id _ _ (sc_read _ _ SC)) IS SN) as V.
  assert (IN : In (make_c_name desc, w mod 2 ^ 32) (s_valdefs s)).
  { rewrite V. apply in_map_iff. exists (w, desc). auto. }
  assert (EX : (s_name s ++ "_" ++ g_name m ++ "_" ++ make_c_name desc)%string = entry_macro_name md d desc) by (unfold entry_macro_name; rewrite SN, (rm_name _ _ (sc_read _ _ SC)); reflexivity).
  pose proof (pj_driver _ _ _ P) as DR. pose proof (pj_header _ _ _ P) as HO.
  assert (ON : once (entry_macro_name md d desc) (e_h e)).
  { eapply names_once; [exact DR|exact HO| |].
    - pose proof (pj_macros _ _ _ P) as N. now inversion N.
    - apply (entry_in _ _ m); [exact J|]. unfold entry_names. rewrite NE. apply in_flat_map. exists s. split; [exact IS|]. apply in_map_iff. exists (make_c_name desc, w mod 2 ^ 32). split; [exact EX|exact IN]. }
  rewrite <- EX in ON, LK. destruct (table_typed _ _ _ _ _ (e_conf e) m s _ _ DR HO J NE IS IN ON LK) as (bd & ex & B1 & B2 & B3). rewrite EX in B1.
  cbn [eval lookup]. rewrite EM, B1, B2. apply B3.
Qed.
Lemma plain_field : forall d, unscaled d -> field_name d = sd_name d.
Proof. intros d US. unfold field_name. apply unscaledb_ok in US. now rewrite US. Qed.

Theorem table_compares : forall srt bs e es md d w desc bits mm z, project srt bs e -> read_entries srt (file_text bs) (e_db e) es ->
  In md (file_msgs bs) -> In d (md_sigs md) -> unscaled d -> table_entry es md d w desc -> comparable d w ->
  lookup (entry_macro_name md d desc) (e_conf e) = None -> struct_at bits mm md -> decl_is mm d z ->
  forall n C, c_macros C = after_header (e_conf e) (e_h e) -> eval (S n) C mm [] (comparison md d desc) = Ok (vbool (z =? w)).
Proof.
  intros srt bs e es md d w desc bits mm z P R IM ID US T CO LK ST DI n C EM.
  pose proof (table_macro _ _ _ _ _ _ _ _ P R IM ID US T LK n C mm EM) as E2.
  pose proof (ft_len _ (pj_fits _ _ _ P md IM) d ID) as LN.
  destruct (member_value bits d mm (member (field_name d)) z LN (ST d ID) DI) as (t & SM & F & K). rewrite (plain_field d US) in SM. unfold member in SM.
  unfold comparison. rewrite eval_bin by reflexivity.
  assert (E1 : eval (S n) C mm [] (EFld true (EId "_m") (sd_name d)) = Ok (VI t z)).
  { cbn [eval path]. change ("_m" ++ "->" ++ sd_name d)%string with ("_m->" ++ sd_name d)%string. now rewrite SM. }
  rewrite E1. cbn [bind]. rewrite E2. cbn [bind]. exact (compare_values d t z w LN F K CO).
Qed.

(** after Unpack *)
Theorem table_decodes : forall srt bs e es md bits data dl mm, project srt bs e -> read_entries srt (file_text bs) (e_db e) es -> floats_on e = false ->
  In md (file_msgs bs) -> md_sigs md <> [] -> short_signed md -> unpack_call bits md data dl mm -> counter_at e bits md mm -> DeclSpec.monitored e md mm ->
  exists mm', unpack_decl e md mm = Ok (mm', Some (VI U32 (frame_id md))) /\
    forall d w desc n C, In d (md_sigs md) -> decl_exact d -> unscaled d -> table_entry es md d w desc -> comparable d w ->
      lookup (entry_macro_name md d desc) (e_conf e) = None -> c_macros C = after_header (e_conf e) (e_h e) ->
      eval (S n) C mm' [] (comparison md d desc) = Ok (vbool (decl_value d data =? w)).
Proof.
  intros srt bs e es md bits data dl mm P RE B I NE SS U CA MN. destruct (project_msg _ _ _ _ P I NE) as (m & J & S & N).
  destruct (receives_decl _ _ _ _ _ _ _ _ _ P B I S J N U CA MN) as (tick & hash & hook & R). pose proof (short_fit _ _ S SS) as SF.
  destruct (receive_run _ _ _ _ _ _ _ _ _ _ R SF) as (m1 & RUN & UR & _). destruct (unpack_declared _ _ _ _ _ _ _ _ P B I NE SS U CA MN) as (mm' & RUN' & V).
  assert (m1 = mm').
  { unfold unpack_decl, frame_id in RUN'. unfold unpack, unpack_name in RUN. rewrite (rm_name _ _ (sc_read _ _ S)), (rm_id _ _ (sc_read _ _ S)) in RUN. congruence. }
  subst m1. exists mm'. split; [exact RUN'|]. intros d w desc n C ID EX US T CO LK EC.
  apply (table_compares srt bs e es md d w desc bits mm' (decl_value d data)); auto.
  intros d' ID'. destruct (decl_of_sig _ _ S d' ID') as (s & IS & RA). destruct (read_names d' s RA) as (NM & _).
  pose proof (hs_sigs _ _ _ _ _ (ur_struct _ _ _ _ _ _ _ _ UR) s IS) as H. rewrite NM, (read_object bits d' s RA) in H; [exact H|now apply (sc_decl _ _ S)|now apply (ft_len _ (pj_fits _ _ _ P md I))].
Qed.

(** *** Sending an entry *)
Lemma object_ok : forall bits d, (1 <= sd_len d <= 64)%N -> lty_ok (field_object bits d).
Proof.
  intros bits d L. unfold field_object. destruct (bits && (sd_len d <? 8)%N) eqn:B; [|exact I]. cbn [lty_ok]. unfold field_type.
  replace (sd_len d <=? 8)%N with true by lia. destruct (sd_signed d); cbn [width]; lia.
Qed.
Lemma swrap_id : forall w z, 0 < w -> - 2 ^ (w - 1) <= z < 2 ^ (w - 1) -> swrap w z = z.
Proof.
  intros w z W Z. unfold swrap. cbv zeta. assert (E : 2 ^ w = 2 * 2 ^ (w - 1)) by (rewrite <- Z.pow_succ_r by lia; f_equal; lia).
  destruct (Z.ltb_spec z 0).
  - assert (M : z mod 2 ^ w = z + 2 ^ w) by (rewrite <- (Z_mod_plus_full z 1), Z.mod_small by lia; lia). rewrite M. destruct (_ <? _) eqn:X; lia.
  - rewrite Z.mod_small by lia. destruct (_ <? _) eqn:X; lia.
Qed.
Lemma type_fits : forall d w, (1 <= sd_len d <= 64)%N -> decl_carries d w -> CSem.fits (field_type d) w = true.
Proof.
  intros d w L C. unfold decl_carries, carries in C. unfold field_type.
  assert (G : forall n k, (n <= k)%N -> 2 ^ Z.of_N n <= 2 ^ Z.of_N k) by (intros; apply Z.pow_le_mono_r; lia).
  assert (H : forall n k, (1 <= n <= k)%N -> 2 ^ (Z.of_N n - 1) <= 2 ^ (Z.of_N k - 1)) by (intros; apply Z.pow_le_mono_r; lia).
  destruct (sd_len d <=? 8)%N eqn:A; [|destruct (sd_len d <=? 16)%N eqn:B; [|destruct (sd_len d <=? 32)%N eqn:D]]; destruct (sd_signed d); unfold CSem.fits; cbn;
    [pose proof (H (sd_len d) 8%N)|pose proof (G (sd_len d) 8%N)|pose proof (H (sd_len d) 16%N)|pose proof (G (sd_len d) 16%N)|pose proof (H (sd_len d) 32%N)|pose proof (G (sd_len d) 32%N)|
     pose proof (H (sd_len d) 64%N)|pose proof (G (sd_len d) 64%N)]; cbn in *; lia.
Qed.
Lemma object_value : forall bits d t v w, (1 <= sd_len d <= 64)%N -> decl_carries d w -> conv (field_type d) v = w ->
  exists t', to_obj (field_object bits d) (VI t v) = Ok (VI t' w).
Proof.
  intros bits d t v w L C E. unfold field_object. destruct (bits && (sd_len d <? 8)%N) eqn:B; cbn [to_obj to_int bind]; rewrite E; [|eauto].
  unfold decl_carries, carries in C. unfold field_type. replace (sd_len d <=? 8)%N with true by lia. destruct (sd_signed d).
  - cbn [is_signed]. rewrite swrap_id by lia. eauto.
  - cbn [is_signed]. unfold uwrap. rewrite Z.mod_small by lia. eauto.
Qed.
Lemma macro_stored : forall d w, (1 <= sd_len d <= 64)%N -> decl_carries d w -> comparable d w -> conv (field_type d) (swrap 32 (w mod 2 ^ 32)) = w.
Proof.
  intros d w L C CO. assert (R : - 2 ^ 31 <= w < 2 ^ 32) by (unfold comparable in CO; lia). rewrite (entry_value w R).
  pose proof (type_fits d w L C) as F. unfold comparable in CO. destruct CO as [CO|[[S CO]|(S & L32 & CO)]].
  - replace (w <? 2 ^ 31) with true by lia. now apply conv_id.
  - replace (w <? 2 ^ 31) with true by lia. now apply conv_id.
  - replace (w <? 2 ^ 31) with false by lia. unfold decl_carries, carries in C. rewrite S in C.
    assert (X : sd_len d = 32%N).
    { destruct (N.eq_dec (sd_len d) 32) as [Y|Y]; [exact Y|]. exfalso. assert (2 ^ Z.of_N (sd_len d) <= 2 ^ 31) by (apply Z.pow_le_mono_r; lia). lia. }
    unfold field_type. rewrite X, S. cbn [N.leb N.compare Pos.compare Pos.compare_cont]. unfold conv. cbn [is_signed width]. unfold uwrap.
    rewrite <- (Z_mod_plus_full (w - 2 ^ 32) 1), Z.mod_small by lia. lia.
Qed.
Theorem table_selects : forall srt bs e es md d w desc bits mm, project srt bs e -> read_entries srt (file_text bs) (e_db e) es ->
  In md (file_msgs bs) -> In d (md_sigs md) -> unscaled d -> table_entry es md d w desc -> comparable d w -> decl_carries d w ->
  lookup (entry_macro_name md d desc) (e_conf e) = None -> struct_at bits mm md ->
  forall n C, c_macros C = after_header (e_conf e) (e_h e) ->
  exists v, exec_expr (S n) C mm (selection md d desc) = Ok (set_scal mm (member (field_name d)) (field_object bits d, v)) /\
    to_obj (field_object bits d) v = Ok v /\ exists t, v = VI t w.
Proof.
  intros srt bs e es md d w desc bits mm P R IM ID US T CO CA LK ST n C EM.
  pose proof (table_macro _ _ _ _ _ _ _ _ P R IM ID US T LK n C mm EM) as E2.
  pose proof (ft_len _ (pj_fits _ _ _ P md IM) d ID) as LN. destruct (ST d ID) as (v0 & S0 & _).
  destruct (object_value bits d (if swrap 32 (w mod 2 ^ 32) =? - 2 ^ 31 then I64 else I32) (swrap 32 (w mod 2 ^ 32)) w LN CA (macro_stored d w LN CA CO)) as (t' & TO).
  exists (VI t' w). split; [|split; [eapply to_obj_twice; [now apply object_ok|exact TO]|eauto]].
  unfold selection, exec_expr. rewrite E2. cbn [bind assign path]. rewrite (plain_field d US) in *. unfold member in *.
  change ("_m" ++ "->" ++ sd_name d)%string with ("_m->" ++ sd_name d)%string. rewrite S0, TO. reflexivity.
Qed.

Section Selected.
Variables (mm : mem) (q : string) (l : lty) (v0 v : cval).
Hypothesis Old : m_scal mm q = Some (l, v0).
Hypothesis New : to_obj l v = Ok v.
Let mm' := set_scal mm q (l, v).
Lemma sel_at : forall p, m_scal mm' p = if String.eqb p q then Some (l, v) else m_scal mm p.
Proof. intros p. unfold mm', set_scal. cbn [m_scal]. unfold upd. try rewrite String.eqb_sym. destruct (String.eqb_spec q p); destruct (String.eqb_spec p q); congruence. Qed.
Lemma sel_type : forall p t, has_type mm p t -> has_type mm' p t.
Proof.
  intros p t (x & S & T). unfold has_type. rewrite sel_at. destruct (String.eqb_spec p q) as [->|]; [|eauto]. exists v. split; [congruence|]. assert (t = l) by congruence. now subst.
Qed.
Lemma sel_some : forall p t, (exists x, m_scal mm p = Some (t, x)) -> exists x, m_scal mm' p = Some (t, x).
Proof. intros p t (x & S). rewrite sel_at. destruct (String.eqb_spec p q) as [->|]; [|eauto]. exists v. congruence. Qed.
Lemma sel_none : forall p, m_scal mm p = None -> m_scal mm' p = None.
Proof. intros p S. rewrite sel_at. destruct (String.eqb_spec p q) as [->|]; [congruence|exact S]. Qed.
End Selected.

Theorem table_sent : forall srt1 srt2 bs e1 e2 es1 es2 md bits1 bits2 mx data hash mm1 mm2 dl data2 d w desc,
  project srt1 bs e1 -> read_entries srt1 (file_text bs) (e_db e1) es1 -> floats_on e1 = false ->
  project srt2 bs e2 -> read_entries srt2 (file_text bs) (e_db e2) es2 -> floats_on e2 = false ->
  In md (file_msgs bs) -> disjoint_bits md -> short_signed md ->
  pack_call e1 bits1 md mx data mm1 -> computing e1 bits1 md hash mm1 ->
  unpack_call bits2 md data2 dl mm2 -> counter_at e2 bits2 md mm2 -> DeclSpec.monitored e2 md mm2 ->
  In d (md_sigs md) -> unscaled d -> decl_exact d -> ~ counter_decl e1 md d -> ~ checksum_decl e1 md d ->
  table_entry es1 md d w desc -> comparable d w -> decl_carries d w -> lookup (entry_macro_name md d desc) (e_conf e1) = None ->
  forall n C1, c_macros C1 = after_header (e_conf e1) (e_h e1) ->
  exists mm mm1' data' mm2', exec_expr (S n) C1 mm1 (selection md d desc) = Ok mm /\
    pack_decl e1 md mm = Ok (mm1', Some (VI U32 (frame_id md))) /\ frame e1 mm1' data' /\
    (firstn (N.to_nat (md_dlc md)) data2 = firstn (N.to_nat (md_dlc md)) data' ->
       unpack_decl e2 md mm2 = Ok (mm2', Some (VI U32 (frame_id md))) /\
       forall w' desc' k C2, table_entry es2 md d w' desc' -> comparable d w' -> lookup (entry_macro_name md d desc') (e_conf e2) = None ->
         c_macros C2 = after_header (e_conf e2) (e_h e2) -> eval (S k) C2 mm2' [] (comparison md d desc') = Ok (vbool (w =? w'))).
Proof.
  intros srt1 srt2 bs e1 e2 es1 es2 md bits1 bits2 mx data hash mm1 mm2 dl data2 d w desc P1 R1 F1 P2 R2 F2 I DB SS PC CG UC CA MN ID US EX NC NS T CO CW LK n C1 EM.
  assert (NE : md_sigs md <> []) by (intros X; rewrite X in ID; contradiction).
  destruct (table_selects _ _ _ _ _ _ _ _ _ _ P1 R1 I ID US T CO CW LK (pc_struct _ _ _ _ _ _ PC) n C1 EM) as (v & EXE & TV & (t & EV)).
  destruct (pc_struct _ _ _ _ _ _ PC d ID) as (v0 & S0 & _). set (q := member (field_name d)) in *. set (mm := set_scal mm1 q (field_object bits1 d, v)) in *.
  assert (PC' : pack_call e1 bits1 md mx data mm).
  { destruct PC as [A1 A2 A3 A4 A5]. constructor; [exact A1| | |exact A4|exact A5].
    - destruct (struct_on e1); [destruct A2 as (X & Y & Z); split; [|split]|destruct A2 as (X & Y); split]; apply (sel_some mm1 q _ v0 v S0); assumption.
    - intros x IX. eapply sel_type; eauto. }
  assert (CG' : computing e1 bits1 md hash mm).
  { destruct CG as [A1 A2 A3 A4]. constructor.
    - intros x IX CX. eapply sel_type; eauto.
    - intros x z IX CX DX. apply (A2 x z IX CX). unfold decl_is, int_at in *. unfold mm in DX. rewrite (sel_at mm1 q) in DX.
      destruct (String.eqb_spec (member (field_name x)) q) as [E|]; [|exact DX]. exfalso. apply NC. unfold counter_decl in *.
      assert (E' : field_name x = field_name d) by (unfold q, member in E; now injection E). now rewrite <- E'.
    - exact A3.
    - intros m B X. destruct (A4 m B X) as (Y1 & Y2 & Y3). split; [exact Y1|]. split; [|exact Y3]. eapply sel_none; eauto. }
  destruct (sent_and_received _ _ _ _ _ _ _ _ _ _ _ _ _ _ _ P1 F1 P2 F2 I NE DB SS PC' CG' UC CA MN) as (mm1' & data' & mm2' & PK & FR & RT).
  exists mm, mm1', data', mm2'. split; [exact EXE|]. split; [exact PK|]. split; [exact FR|]. intros EQ. destruct (RT EQ) as (UP & VA). split; [exact UP|].
  intros w' desc' k C2 T' CO' LK' EM'.
  assert (DI : decl_is mm d w) by (unfold decl_is, int_at, mm; rewrite (sel_at mm1 q); fold q; rewrite String.eqb_refl, EV; reflexivity).
  pose proof (proj1 (VA d w ID EX NS DI) NC CW) as D2.
  destruct (table_decodes _ _ _ _ _ _ _ _ _ P2 R2 F2 I NE SS UC CA MN) as (m3 & UP' & H). rewrite UP in UP'. assert (m3 = mm2') by congruence. subst m3.
  pose proof (H d w' desc' k C2 ID EX US T' CO' LK' EM') as G. destruct (unpack_declared _ _ _ _ _ _ _ _ P2 F2 I NE SS UC CA MN) as (m4 & UP4 & H4). rewrite UP in UP4. assert (m4 = mm2') by congruence. subst m4.
  pose proof (H4 d ID EX) as D3. unfold decl_is in D2, D3. rewrite D2 in D3. injection D3 as D3. now rewrite D3.
Qed.
