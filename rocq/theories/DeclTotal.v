(** Files of declarations that are not too large are scanned and generated without failure. *)

From Coq Require Import ZArith NArith List String Ascii Bool Lia ZifyBool Permutation.
From Verif Require Import Base Dbl CSyntax CSem CRun Types Formatter Settings SigPrinter MainGen App LineParser Scanner LexLemmas PPProof CodecSpec MsgSpec
  DriverSpec HeaderSpec StructSpec ScanSpec ScanLemmas ScanPass1 ScanPass2 ScanFile ScanThms ScanMarks SigSpec SigLine SigFile SigTypes NamesSpec CodecEnv ConvSpec ConvEnv ConvThms
  CodecFacts NamesThms DblSize DeclSpec DeclThms GenTotal.
Import ListNotations.
Open Scope string_scope.

(** *** Types *)
Lemma cast64 : forall d z, dtrunc d = Some z -> int64 z -> cast_i64 d = Ok z.
Proof. intros d z T I. unfold cast_i64, int64 in *. rewrite T. destruct (_ && _) eqn:B; [reflexivity|lia]. Qed.
Lemma i64_ok : forall z, int64 z -> i64 z = Ok z.
Proof. intros z I. unfold i64, int64 in *. destruct (_ && _) eqn:B; [reflexivity|lia]. Qed.
Lemma top_fine : forall (signed : bool) (len : Z), (1 <= len <= if signed then 63 else 62)%Z ->
  exists m, top_of signed len = Ok m /\ (0 <= m <= 2 ^ (if signed then len - 1 else len))%Z.
Proof.
  intros signed len L. pose proof (good_at signed len ltac:(destruct signed; lia)) as G. unfold good_len in G.
  destruct (top_of signed len) as [m| |]; [|destruct signed; lia|destruct signed; lia]. exists m. split; [reflexivity|].
  cbv zeta in G. pose proof (Z.pow_pos_nonneg 2 (if signed then len - 1 else len)%Z ltac:(lia) ltac:(destruct signed; lia)). lia.
Qed.
Lemma types_total : forall d, decl_ok d -> (1 <= sd_len d)%N -> sized_decl d ->
  exists types, get_sig_type (sd_signed d) (Z.of_N (sd_len d)) (fractional (sd_factor d) || fractional (sd_offset d)) (num_value (sd_factor d)) (num_value (sd_offset d)) = Ok types.
Proof.
  intros d OK L1 [L (q & Q1 & Q2) SI]. unfold get_sig_type. rewrite (cast64 _ _ Q1 Q2). cbn [bind].
  destruct (top_fine (sd_signed d) (Z.of_N (sd_len d)) ltac:(destruct (sd_signed d); lia)) as (m & T & B). unfold top_of in T. rewrite T. cbn [bind].
  set (n := Z.of_N (sd_len d)) in *. assert (N : (0 <= n)%Z) by lia.
  assert (PW : (0 < 2 ^ n <= 2 ^ 63)%Z) by (split; [lia|apply Z.pow_le_mono_r; destruct (sd_signed d); lia]).
  assert (MB : (0 <= m <= 2 ^ n)%Z /\ (sd_signed d = true -> m <= 2 ^ 62)%Z /\ (sd_signed d = true -> 2 * m <= 2 ^ n)%Z).
  { destruct (sd_signed d).
    - assert (E : (2 ^ n = 2 * 2 ^ (n - 1))%Z) by (rewrite <- Z.pow_succ_r by lia; f_equal; lia).
      assert (2 ^ (n - 1) <= 2 ^ 62)%Z by (apply Z.pow_le_mono_r; lia). lia.
    - split; [exact B|]. split; discriminate. }
  destruct MB as (M1 & M2 & M3).
  assert (MN : exists v, (if sd_signed d then do a <- i64 (m + 1); i64 (a * -1) else Ok 0%Z) = Ok v /\ (- 2 ^ n <= v <= 0)%Z).
  { destruct (sd_signed d) eqn:S.
    - specialize (M2 eq_refl). specialize (M3 eq_refl). rewrite i64_ok by (unfold int64; lia). cbn [bind]. rewrite i64_ok by (unfold int64; lia). eexists. split; [reflexivity|].
      assert (2 <= 2 ^ n)%Z by (apply (Z.pow_le_mono_r 2 1 n); lia). lia.
    - exists 0%Z. split; [reflexivity|lia]. }
  destruct MN as (v & -> & VB). cbn [bind]. clear T B M2 M3.
  destruct (sd_factor d) as [f|? ? ? ?] eqn:EF; [|cbn [fractional orb]; eexists; reflexivity].
  destruct (sd_offset d) as [o|? ? ? ?] eqn:EO; [|cbn [fractional orb]; eexists; reflexivity].
  cbn [fractional orb num_value]. destruct (SI f o eq_refl eq_refl) as (F & O & X). clear SI Q1 Q2.
  destruct (int_double f ltac:(lia)) as [VF _]. destruct (int_double o ltac:(lia)) as [VO _].
  rewrite (cast64 _ _ (int_val_trunc _ _ VO)) by (unfold int64; lia). cbn [bind].
  rewrite (cast64 _ _ (int_val_trunc _ _ VF)) by (unfold int64; lia). cbn [bind].
  assert (AM : (Z.abs (m * f) <= 2 ^ n * Z.abs f)%Z) by (rewrite Z.abs_mul, (Z.abs_eq m) by lia; apply Z.mul_le_mono_nonneg_r; lia).
  assert (AV : (Z.abs (v * f) <= 2 ^ n * Z.abs f)%Z) by (rewrite Z.abs_mul; apply Z.mul_le_mono_nonneg_r; lia).
  set (P := (2 ^ n * Z.abs f)%Z) in *. clearbody P.
  rewrite (i64_ok (m * f)) by (unfold int64; lia). cbn [bind]. rewrite (i64_ok (m * f + o)) by (unfold int64; lia). cbn [bind].
  rewrite (i64_ok (v * f)) by (unfold int64; lia). cbn [bind]. rewrite (i64_ok (v * f + o)) by (unfold int64; lia). cbn [bind].
  destruct (_ || _ || _); [|eexists; reflexivity].
  rewrite !i64_ok by (unfold int64; lia). cbn [bind]. destruct (_ <? _)%Z; eexists; reflexivity.
Qed.

(** *** Lines *)
Lemma digit_small : forall c, is_digit c = true -> (digit_val c <= 9)%N.
Proof. intros c H. assert (X : implb (is_digit c) (digit_val c <=? 9)%N = true) by (revert c H; intros c _; destruct c as [[] [] [] [] [] [] [] []]; vm_compute; reflexivity). rewrite H in X. cbn in X. lia. Qed.
Lemma digits_small : forall s acc n, all_chars is_digit s = true -> (n + String.length s <= 19)%nat -> (acc < 10 ^ N.of_nat n)%N -> (take_digits acc s < 10 ^ 19)%N.
Proof.
  induction s as [|c s IH]; intros acc n D L A; cbn [take_digits].
  - eapply N.lt_le_trans; [exact A|]. apply N.pow_le_mono_r; [discriminate|]. cbn [String.length] in L. lia.
  - cbn [all_chars String.length] in *. apply andb_true_iff in D as [C D]. rewrite C. apply (IH _ (S n)); auto; [lia|].
    rewrite Nat2N.inj_succ, N.pow_succ_r'.
    pose proof (digit_small c C). lia.
Qed.

Lemma runs_mono : forall s n m, (m <= n)%nat -> digit_runs n s = true -> digit_runs m s = true.
Proof.
  induction s as [|c s IH]; intros n m L H; [reflexivity|]. cbn [digit_runs] in *. destruct (is_digit c); [|exact H].
  apply andb_true_iff in H as [A B]. apply Nat.ltb_lt in A. rewrite (IH (S n) (S m)) by (auto; lia). assert (X : (m <? 19)%nat = true) by (apply Nat.ltb_lt; lia). now rewrite X.
Qed.
Lemma runs_suffix : forall a r n, digit_runs n (a ++ r) = true -> digit_runs 0 r = true.
Proof.
  induction a as [|c a IH]; intros r n H; [apply (runs_mono _ n); [lia|exact H]|]. cbn [digit_runs append] in H. destruct (is_digit c); [|eauto].
  apply andb_true_iff in H as [_ H]. eauto.
Qed.
Lemma runs_prefix : forall a r n, digit_runs n (a ++ r) = true -> digit_runs n a = true.
Proof.
  induction a as [|c a IH]; intros r n H; [reflexivity|]. cbn [digit_runs append] in *. destruct (is_digit c); [|eauto].
  apply andb_true_iff in H as [A H]. rewrite A. cbn [andb]. eauto.
Qed.
Lemma runs_length : forall a n, digit_runs n a = true -> (n <= 19)%nat -> all_chars is_digit a = true -> (n + String.length a <= 19)%nat.
Proof.
  induction a as [|c a IH]; intros n H N D; cbn [digit_runs all_chars String.length] in *; [lia|]. apply andb_true_iff in D as [C D]. rewrite C in H.
  apply andb_true_iff in H as [A H]. apply Nat.ltb_lt in A. specialize (IH (S n) H ltac:(lia) D). lia.
Qed.
Lemma span_spec : forall p s a r, span p s = (a, r) -> s = a ++ r /\ all_chars p a = true.
Proof.
  intros p. induction s as [|c s IH]; intros a r H; cbn [span] in H.
  - injection H as <- <-. auto.
  - destruct (p c) eqn:C.
    + destruct (span p s) as [a' r'] eqn:E. injection H as <- <-. destruct (IH _ _ eq_refl) as [-> D]. split; [reflexivity|]. cbn [all_chars]. now rewrite C, D.
    + injection H as <- <-. auto.
Qed.
Lemma drop_suffix : forall p s, exists a, s = a ++ drop_while p s.
Proof. intros p. induction s as [|c s (a & IH)]; [now exists ""|]. cbn [drop_while]. destruct (p c); [exists (String c a); cbn [append]; now f_equal|now exists ""]. Qed.
Lemma quote_suffix : forall s, exists a, s = a ++ opt_quote s.
Proof. intros [|c s]; [now exists ""|]. cbn [opt_quote]. destruct (Ascii.eqb c DQ); [now exists (String c "")|now exists ""]. Qed.
Lemma stoul_total : forall a, digit_runs 0 a = true -> all_chars is_digit a = true -> exists z, stoul32 a = Ok z.
Proof.
  intros a R D. pose proof (runs_length a 0 R ltac:(lia) D) as L. pose proof (digits_small a 0 0 D L ltac:(cbn; lia)) as B. unfold stoul32. cbv zeta.
  change (10 ^ 19)%N with 10000000000000000000%N in B. destruct (_ <? _)%Z eqn:E; [eauto|]. change (2 ^ 64)%Z with 18446744073709551616%Z in E. lia.
Qed.
Lemma version_total : forall l, digit_runs 0 l = true -> exists v, find_version l = Ok v.
Proof.
  intros l H. unfold find_version, match_version.
  destruct (span is_alpha l) as [w r1] eqn:E1. destruct (span_spec _ _ _ _ E1) as [-> _]. apply runs_suffix in H.
  destruct (drop_suffix is_space r1) as (x & X). rewrite X in H. apply runs_suffix in H. destruct (quote_suffix (drop_while is_space r1)) as (y & Y). rewrite Y in H. apply runs_suffix in H.
  destruct (span is_digit _) as [a r2] eqn:E2. destruct (span_spec _ _ _ _ E2) as [E2' D2]. rewrite E2' in H. pose proof (runs_prefix _ _ _ H) as A. apply runs_suffix in H.
  destruct (span _ r2) as [sep r3] eqn:E3. destruct (span_spec _ _ _ _ E3) as [-> _]. apply runs_suffix in H.
  destruct (span is_digit r3) as [b r4] eqn:E4. destruct (span_spec _ _ _ _ E4) as [-> D4]. apply runs_prefix in H.
  destruct (_ && _); [|eauto]. destruct (stoul_total a A D2) as (z & ->). destruct (stoul_total b H D4) as (z' & ->). cbn [bind]. eauto.
Qed.
Lemma bo_version : forall id name dlc tx, find_version (bo_line id name dlc tx) = Ok None.
Proof.
  intros. unfold find_version, match_version, bo_line. set (r := dec id ++ _). change (span is_alpha ("BO_ " ++ r)) with ("BO", "_ " ++ r). cbv iota beta.
  change (opt_quote (drop_while is_space ("_ " ++ r))) with ("_ " ++ r). change (span is_digit ("_ " ++ r)) with ("", "_ " ++ r). cbv iota beta.
  destruct (span _ ("_ " ++ r)) as [sep r3]. destruct (span is_digit r3) as [b r4]. reflexivity.
Qed.
Lemma sg_version : forall d, find_version (sig_line d) = Ok None.
Proof.
  intros d. unfold find_version, match_version, sig_line, sg_line. set (r := sd_name d ++ _). change (span is_alpha (" SG_ " ++ r)) with ("", " SG_ " ++ r). cbv iota beta.
  change (opt_quote (drop_while is_space (" SG_ " ++ r))) with ("SG_ " ++ r). change (span is_digit ("SG_ " ++ r)) with ("", "SG_ " ++ r). cbv iota beta.
  destruct (span _ ("SG_ " ++ r)) as [sep r3]. destruct (span is_digit r3) as [b r4]. reflexivity.
Qed.

(** *** The file *)
Definition passes (l : string) : Prop := (exists v, find_version l = Ok v) /\ (is_signal_line l = true -> exists s, parse_signal_line l = Ok s).
Lemma fold_passes : forall srt ls st, (forall l, In l ls -> passes (str_trim l)) -> exists st', fold_res (info_line srt) st ls = Ok st'.
Proof.
  intros srt. induction ls as [|l ls IH]; intros st H; cbn [fold_res]; [eauto|].
  assert (X : exists st', info_line srt st l = Ok st').
  { destruct (H l (or_introl eq_refl)) as [(v & V) S]. unfold info_line. cbv zeta. rewrite V. cbn [bind].
    destruct (if is_message_line (str_trim l) then _ else _) as [[msgs mx] cur].
    assert (Y : exists c, match cur with
            | Some m => if is_signal_line (str_trim l) then do s <- parse_signal_line (str_trim l); Ok (Some (match s with Some s => push_sig m s | None => m end)) else Ok cur
            | None => Ok cur end = Ok c).
    { destruct cur as [m|]; [|eauto]. destruct (is_signal_line (str_trim l)) eqn:Q; [|eauto]. destruct (S eq_refl) as (s & ->). cbn [bind]. eauto. }
    destruct Y as (c & ->). cbn [bind]. destruct (parse_multi_trans (str_trim l)) as [txid txs]. destruct (txid =? 0)%Z; eauto. }
  destruct X as (st' & ->). cbn [bind]. apply IH. intros x I. apply H. now right.
Qed.

Lemma signal_passes : forall d, clear_decl d -> (1 <= sd_len d)%N -> sized_decl d -> passes (sig_line d).
Proof.
  intros d (DO & T1 & T2) L S. split; [exists None; apply sg_version|]. intros _. rewrite line_read by auto.
  destruct (types_total d DO L S) as (t & ->). cbn [bind]. eauto.
Qed.
Lemma bo_passes : forall id name dlc tx, node_name name -> node_name tx -> passes (bo_line id name dlc tx).
Proof.
  intros id name dlc tx N T. split; [exists None; apply bo_version|]. intros Q.
  exists None. apply no_signal. apply bo_one; auto.
Qed.
Lemma other_passes : forall l, SigSpec.other_line l -> digit_runs 0 l = true -> passes (str_trim l).
Proof.
  intros l (NLs & P & M) R. destruct (string_dec l "") as [->|E]; [split; [exists None; reflexivity|discriminate]|]. destruct (trim_prefix l E) as (t & X). split.
  - apply version_total. rewrite X in R. now apply runs_prefix in R.
  - intros Q. destruct M as [M|M].
    + apply (signal_mentions _ t) in Q. rewrite <- X in Q. congruence.
    + exists None. apply no_signal. apply spaced_split. rewrite X in M. now apply spaced_app in M.
Qed.

Theorem file_scans : forall srt bs, (forall b, In b bs -> block_ok b /\ sized_block b) ->
  (forall m d, In m (file_msgs bs) -> In d (md_sigs m) -> (1 <= sd_len d)%N) -> exists db, scan srt (file_text bs) = Ok db.
Proof.
  intros srt bs OK L. unfold scan, parse_message_info. cbv zeta. rewrite file_getlines by (intros; now apply OK).
  destruct (fold_passes srt (flat_map block_lines bs) {| p_msgs := []; p_max := 0; p_hi := 0; p_low := 0; p_cur := None |}) as (st & E).
  - intros l I. apply in_flat_map in I as (b & B & I). destruct (OK b B) as [K1 K2]. destruct b as [m|x]; cbn [block_lines block_ok sized_block] in *.
    + destruct K1 as [_ _ N T S]. destruct I as [<-|I]; [rewrite bo_trim by auto; now apply bo_passes|]. apply in_map_iff in I as (d & <- & I).
      rewrite sig_trim by apply S, I. apply signal_passes; auto. apply (L m d); auto. apply in_flat_map. exists (BMsg m). split; [exact B|now left].
    + destruct I as [<-|[]]. now apply other_passes.
  - rewrite E. cbn [bind]. eauto.
Qed.

(** *** The driver *)

Lemma sized_fit : forall d s, sized_decl d -> read_as d s -> ints_fit s.
Proof.
  intros d s [_ _ SI] R A B. rewrite (ra_factor _ _ R), (ra_offset _ _ R). rewrite (ra_double _ _ R) in B.
  destruct (sd_factor d) as [f|? ? ? ?]; [|discriminate B]. destruct (sd_offset d) as [o|? ? ? ?]; [|discriminate B]. destruct (SI f o eq_refl eq_refl) as (F & O & _).
  cbn [num_value]. destruct (int_double f ltac:(lia)) as [VF _]. destruct (int_double o ltac:(lia)) as [VO _].
  exists f, o. unfold cast_i32. rewrite (int_val_trunc _ _ VF), (int_val_trunc _ _ VO).
  split; (destruct (_ && _) eqn:Q; [reflexivity|lia]).
Qed.
Theorem sound_builds : forall srt drv bs d, sorts srt -> scan srt (file_text bs) = Ok d -> sound_file drv bs d ->
  forall srt2 s, sorts srt2 -> exists h c rest, generate_main srt2 d s = Ok ((f_coreh_path (st_f s), h) :: (f_corec_path (st_f s), c) :: rest).
Proof.
  intros srt drv bs d SR SC D srt2 s SR2.
  assert (F : Forall2 scanned (file_msgs bs) (d_msgs d)).
  { apply (file_scanned srt bs d SR); [intros b I; now apply (sf_blocks _ _ _ D)|exact SC|intros m I; now apply (sf_entries _ _ _ D)]. }
  assert (MS : forall m, In m (d_msgs d) -> (msg_ok m /\ csm_first8 m /\ forall sg, In sg (g_sigs m) -> ints_fit sg) /\ counter_fits m).
  { intros m I. destruct (forall2_in_r _ _ _ _ _ _ F I) as (md & J & S).
    assert (BO : mdecl_ok md /\ forall x, In x (md_sigs md) -> sized_decl x).
    { apply in_flat_map in J as ([m'|x] & B & E); [|contradiction]. destruct E as [E|[]]. subst m'. apply (sf_blocks _ _ _ D _ B). }
    destruct BO as [MO SZ]. split; [|now apply (sf_entries _ _ _ D)].
    destruct (scanned_ok md m S (sf_fits _ _ _ D md J) MO) as (A & B & _). split; [exact A|]; split; [exact B|].
    intros sg G. destruct (sig_of_decl _ _ S sg G) as (x & X & R). apply (sized_fit x); auto. }
  destruct (generation srt2 d s SR2) as [(_ & fs & G)|((m & I & _ & N) & _)].
  - intros m I. now apply MS.
  - unfold generate_main in *. cbv zeta in *. destruct (load_messages (d_msgs d)) as [xs0| |]; try discriminate G. cbn [bind] in *.
    destruct (main_header _ _ _) as [h| |]; try discriminate G. cbn [bind] in *. destruct (main_source _ _ _) as [c| |]; try discriminate G. cbn [bind List.app] in *.
    do 3 eexists. reflexivity.
  - exfalso. apply N. now apply MS.
Qed.

(** for every sorting order, output place, version and configuration there is a program *)
Theorem sound_project : forall srt drv bs d srt2 out date dbc hi low nc ni nf, sorts srt -> scan srt (file_text bs) = Ok d -> sound_file drv bs d -> sorts srt2 ->
  match date with Some t => no_nl t = true | None => True end -> no_nl dbc = true -> (0 <= hi < 2 ^ 32)%Z -> (0 <= low < 2 ^ 32)%Z ->
  exists h c rest, let s := configure drv out (common_info date) (driver_info dbc) hi low nc ni nf in
    generate_main srt2 d s = Ok ((f_coreh_path (st_f s), h) :: (f_corec_path (st_f s), c) :: rest) /\
    forall fuel conf user calls, locals_free conf ->
      project srt bs {| e_fuel := fuel; e_drv := drv; e_g := st_g s; e_db := d; e_h := h; e_src := c; e_conf := conf; e_user := user; e_calls := calls |}.
Proof.
  intros srt drv bs d srt2 out date dbc hi low nc ni nf SR SC D SR2 DT DB HI LO.
  set (s := configure drv out (common_info date) (driver_info dbc) hi low nc ni nf).
  destruct (sound_builds srt drv bs d SR SC D srt2 s SR2) as (h & c & rest & R). exists h, c, rest. cbv zeta. split; [exact R|]. intros fuel conf user calls LF.
  constructor; cbn [e_drv e_g e_db e_h e_src e_conf]; auto.
  - intros b I. now apply (sf_blocks _ _ _ D).
  - apply D.
  - apply D.
  - exists srt2, out, date, dbc, hi, low, nc, ni, nf, rest. cbv zeta. repeat split; auto; lia.
  - apply D.
  - intros m I. now apply (sf_entries _ _ _ D).
  - apply D.
Qed.

(** *** Files of declarations alone *)
Theorem declared_sound : forall srt drv bs, sorts srt -> declared_file drv bs -> exists d, scan srt (file_text bs) = Ok d /\ sound_file drv bs d /\
  forall m, In m (d_msgs d) -> bare m.
Proof.
  intros srt drv bs SR D. destruct (file_scans srt bs) as (d & SC).
  - intros b I. destruct (df_blocks _ _ D b I) as (A1 & _ & A3). auto.
  - intros m x M X. now apply (ft_len _ (df_fits _ _ D m M)).
  - exists d. split; [exact SC|].
    assert (BA : forall m, In m (d_msgs d) -> bare m).
    { intros m I. apply (silent_bare srt bs d m SR); auto. intros b B. destruct (df_blocks _ _ D b B) as (A1 & A2 & _). auto. }
    split; [|exact BA]. constructor; try apply D.
    + intros b B. destruct (df_blocks _ _ D b B) as (A1 & _ & A3). auto.
    + intros m I. split; [now apply bare_entries, BA|]. intros rs X. unfold roll_sig in X. now rewrite (ba_roll _ (BA m I)) in X.
    + assert (F : Forall2 scanned (file_msgs bs) (d_msgs d)).
      { apply (file_scanned srt bs d SR); [intros b B; now apply (df_blocks _ _ D)|exact SC|intros m I; now apply bare_entries, BA]. }
      assert (X : Permutation (decl_names (str_toupper drv) (file_msgs bs)) (header_names (str_toupper drv) d)).
      { destruct d as [ms mx vh vl]. apply names_perm. eapply forall2_both; [exact F|]. intros m I md S. split; [exact S|now apply BA]. }
      eapply Permutation_NoDup; [|apply (df_macros _ _ D)]. now constructor.
Qed.
Theorem declared_project : forall srt drv bs srt2 out date dbc hi low nc ni nf, sorts srt -> declared_file drv bs -> sorts srt2 ->
  match date with Some t => no_nl t = true | None => True end -> no_nl dbc = true -> (0 <= hi < 2 ^ 32)%Z -> (0 <= low < 2 ^ 32)%Z ->
  exists d h c rest, let s := configure drv out (common_info date) (driver_info dbc) hi low nc ni nf in
    scan srt (file_text bs) = Ok d /\ generate_main srt2 d s = Ok ((f_coreh_path (st_f s), h) :: (f_corec_path (st_f s), c) :: rest) /\
    forall fuel conf user calls, locals_free conf ->
      let e := {| e_fuel := fuel; e_drv := drv; e_g := st_g s; e_db := d; e_h := h; e_src := c; e_conf := conf; e_user := user; e_calls := calls |} in
      project srt bs e /\ uncomputed e.
Proof.
  intros srt drv bs srt2 out date dbc hi low nc ni nf SR D SR2 DT DB HI LO. destruct (declared_sound srt drv bs SR D) as (d & SC & SF & BA).
  destruct (sound_project srt drv bs d srt2 out date dbc hi low nc ni nf SR SC SF SR2 DT DB HI LO) as (h & c & rest & G & P).
  exists d, h, c, rest. cbv zeta in *. split; [exact SC|]. split; [exact G|]. intros fuel conf user calls LF. split; [now apply P|].
  intros m I. apply bare_uncomputed. now apply BA.
Qed.
