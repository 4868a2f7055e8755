(** Physical values of declared signals in the emitted functions. *)

From Coq Require Import ZArith NArith QArith Qabs List String Ascii Bool Lia ZifyBool.
From Coq Require Import Floats.SpecFloat.
From Verif Require Import Base Dbl CSyntax CSem CRun Types Formatter Settings MainGen App LineParser Scanner LexLemmas PPProof CodecSpec MsgSpec CSemLemmas
  DriverSpec HeaderSpec HeaderProof ScanSpec ScanThms SigSpec SigLine SigTypes NamesSpec CodecEnv ConvSpec ConvEnv ConvMacros ConvThms DblPrint DblRound
  StructThms CodecThms CodecFacts NamesThms DeclSpec DeclThms DeclTotal PhysSpec PhysType PhysBound PhysThms.
Import ListNotations.
Open Scope Z_scope.

(** *** Types *)
Lemma line_get : forall line sg, parse_signal_line line = Ok (Some sg) ->
  get_sig_type (s_signed sg) (s_len sg) (s_double sg) (s_factor sg) (s_offset sg) = Ok (s_typero sg, s_typephys sg) /\ 0 <= s_len sg < 256.
Proof.
  intros line sg H. unfold parse_signal_line in H. cbv zeta in H.
  destruct (_ <? 2)%nat; [discriminate|]. destruct (_ <? 2)%nat; [discriminate|]. destruct (_ <? 7)%nat; [discriminate|].
  apply bind_inv in H as ((ro & ph) & T & H). destruct (_ =? 3)%nat; [|discriminate].
  apply ok_some_inj in H. subst sg. cbn [s_len s_signed s_double s_factor s_offset s_typero s_typephys fst snd] in *. split; [exact T|].
  pose proof (uwrap8 (atoi (nth 1 (split_runs recv_delim (trim (nth 0 (split_each is_quote (nth 1 (split_colon line) "")) ""))) ""))). lia.
Qed.
Lemma declared_get : forall s, declared s ->
  get_sig_type (s_signed s) (s_len s) (s_double s) (s_factor s) (s_offset s) = Ok (s_typero s, s_typephys s) /\ 0 <= s_len s < 256.
Proof.
  intros s (line & s0 & H & S). destruct S as (_ & _ & _ & _ & S5 & S6 & _ & S8 & S9 & _ & S11 & S12 & S13 & _).
  rewrite S5, S6, S8, S9, S11, S12, S13. eapply line_get; eauto.
Qed.

(** the two kinds of scaling *)
Definition by_ints (d : sigdecl) (F G : Z) : Prop := sd_factor d = NInt F /\ sd_offset d = NInt G.
Record by_doubles (d : sigdecl) : Prop := {
  bd_frac : fractional (sd_factor d) || fractional (sd_offset d) = true;
  bd_object : phys_object d = LDbl;
  bd_value : forall z v, phys_value d z v <-> exists x q, v = VD x /\ is_double x /\ dval x = Some q /\
    (Qabs (q - (inject_Z z * written (sd_factor d) + written (sd_offset d))) <= tolerance z (written (sd_factor d)) (written (sd_offset d)))%Q;
  bd_converts : converts d <-> moderate (sd_factor d) /\ moderate (sd_offset d);
  bd_back : forall z, converts_back d z <-> coarse d z;
  bd_recovered : forall z w, recovered d z w <-> w = z \/ w = z - Z.sgn z
}.
Lemma kinds : forall d, (exists F G, by_ints d F G) \/ by_doubles d.
Proof.
  intros d. destruct (sd_factor d) as [F|n a b x] eqn:EF, (sd_offset d) as [G|n' a' b' x'] eqn:EG.
  - left. exists F, G. split; auto.
  - right. constructor; unfold phys_object, phys_value, converts, converts_back, recovered, coarse; rewrite ?EF, ?EG; try reflexivity; intros; reflexivity.
  - right. constructor; unfold phys_object, phys_value, converts, converts_back, recovered, coarse; rewrite ?EF, ?EG; try reflexivity; intros; reflexivity.
  - right. constructor; unfold phys_object, phys_value, converts, converts_back, recovered, coarse; rewrite ?EF, ?EG; try reflexivity; intros; reflexivity.
Qed.

Section Signal.
Variables (d : sigdecl) (s : signal).
Hypothesis RA : read_as d s.
Hypothesis DC : declared s.
Hypothesis OK : decl_ok d.
Hypothesis LN : (1 <= sd_len d <= 64)%N.
Hypothesis CV : converts d.

Lemma len1 : 1 <= s_len s.
Proof. rewrite (ra_len _ _ RA). lia. Qed.
Lemma ints_scaled : forall F G, by_ints d F G -> int_scaled s F G /\ 0 < F /\ int_literal F /\ int_literal G.
Proof.
  intros F G [EF EG]. assert (CV' := CV). unfold converts in CV'. rewrite EF, EG in CV'. destruct CV' as (P & LF & LG & _). split; [|auto].
  unfold int_scaled. rewrite (ra_double _ _ RA), (ra_factor _ _ RA), (ra_offset _ _ RA), EF, EG. cbn [num_value]. split; [reflexivity|].
  unfold literal_int in *. split; apply int_double; lia.
Qed.
Lemma ints_type : forall F G, by_ints d F G -> s_typephys s = phys_type d F G.
Proof.
  intros F G K. destruct (ints_scaled F G K) as ((DD & VF & VG) & P & _ & LG). destruct (declared_get s DC) as [T L]. rewrite DD in T. pose proof len1.
  unfold phys_type. rewrite <- (ra_signed _ _ RA), <- (ra_len _ _ RA). unfold int_literal in LG. eapply phys_choice; eauto; lia.
Qed.
Lemma phys_object_ty : phys_ty s = phys_object d.
Proof.
  unfold phys_ty. destruct (kinds d) as [(F & G & K)|K].
  - destruct (ints_scaled F G K) as ((DD & _) & _). rewrite DD, (ints_type F G K). destruct K as [EF EG]. unfold phys_object. now rewrite EF, EG.
  - rewrite (ra_double _ _ RA), (bd_frac _ K), (bd_object _ K). reflexivity.
Qed.
Lemma carried : forall z, decl_carries d z <-> carries (s_signed s) (s_len s) z.
Proof. intros z. unfold decl_carries. now rewrite (ra_signed _ _ RA), (ra_len _ _ RA). Qed.
Lemma phys_held : forall F G z, by_ints d F G -> decl_carries d z -> can_hold (s_typephys s) (z * F + G).
Proof.
  intros F G z K C. destruct (ints_scaled F G K) as ((DD & VF & VG) & P & _). pose proof (declared_types s DC len1) as T.
  eapply (tf_phys _ _ _ _ _ _ _ T); eauto. now apply carried.
Qed.

(** what the conversions compute *)
Definition pf_decl (g : signal) (z : Z) : cval :=
  if s_double g then VD (phys_dbl g z)
  else match dtrunc (s_factor g), dtrunc (s_offset g) with Some F, Some G => VI (s_typephys g) (z * F + G) | _, _ => VI I32 0 end.
Definition tf_decl (mm : mem) (g : signal) : Z :=
  match m_scal mm (member (s_namefloat g)) with
  | Some (_, VD x) => match raw_dbl g x with Some w => w | None => 0 end
  | Some (_, VI _ v) => match dtrunc (s_factor g), dtrunc (s_offset g) with Some F, Some G => Z.quot (v - G) F | _, _ => 0 end
  | None => 0
  end.

Variables (e : env) (msg : message).
Hypothesis SC : scaled_in e msg s.

Lemma numbers : by_doubles d -> near (s_factor s) (written (sd_factor d)) /\ near (s_offset s) (written (sd_offset d)) /\
  (Qabs (written (sd_factor d)) <= big)%Q /\ (Qabs (written (sd_offset d)) <= big)%Q.
Proof.
  intros K. destruct (proj1 (bd_converts _ K) CV) as [MF MG]. rewrite (ra_factor _ _ RA), (ra_offset _ _ RA).
  split; [now apply num_near|]. split; [now apply num_near|]. split; assumption.
Qed.

Lemma from_decl : forall bits, from_raw (e_evals e) (e_ctx e) (e_g e) bits pf_decl s /\ forall z, decl_carries d z -> phys_value d z (pf_decl s z).
Proof.
  intros bits. destruct (kinds d) as [(F & G & K)|K].
  - destruct (ints_scaled F G K) as (IS & P & LF & LG). assert (IS' := IS). destruct IS' as (DD & VF & VG).
    assert (PV : forall z, pf_decl s z = VI (s_typephys s) (z * F + G)).
    { intros z. unfold pf_decl. now rewrite DD, (int_val_trunc _ _ VF), (int_val_trunc _ _ VG). }
    split.
    + unfold from_raw. intros m z C (v & MS & TO) IA MA. apply carried in C. pose proof (phys_held F G z K C) as PH.
      assert (NW : no_wrap s F G z).
      { assert (K' := K). destruct K' as [EF EG]. assert (CV' := CV). unfold converts in CV'. rewrite EF, EG in CV'. destruct CV' as (_ & _ & _ & NO). specialize (NO z C).
        unfold no_wrap. rewrite (read_type d s RA DC LN), (ints_type F G K). exact NO. }
      assert (HR : holds_raw bits m s z).
      { unfold int_at in IA. rewrite MS in IA. destruct v as [t y|]; [|discriminate]. assert (y = z) as -> by congruence. exists t. repeat split; auto. }
      exists (VI (s_typephys s) (z * F + G)). split.
      * eapply (fromS_exact e msg s F G); eauto using len1. now apply carried.
      * rewrite PV. unfold phys_ty. rewrite DD. cbn [to_obj to_int bind]. now rewrite hold_conv.
    + intros z C. rewrite PV, (ints_type F G K). destruct K as [EF EG]. unfold phys_value. now rewrite EF, EG.
  - destruct (numbers K) as (NF & NG & BF & BG). assert (DD : s_double s = true) by (rewrite (ra_double _ _ RA); apply K).
    assert (PV : forall z, pf_decl s z = VD (phys_dbl s z)) by (intros z; unfold pf_decl; now rewrite DD).
    split.
    + unfold from_raw. intros m z C (v & MS & TO) IA MA.
      assert (HR : holds_raw bits m s z).
      { unfold int_at in IA. rewrite MS in IA. destruct v as [t y|]; [|discriminate]. assert (y = z) as -> by congruence. exists t. repeat split; auto. }
      exists (VD (phys_dbl s z)). split.
      * eapply (fromS_dbl e msg s); eauto.
      * rewrite PV. unfold phys_ty. now rewrite DD.
    + intros z C. apply (bd_value _ K). rewrite PV. apply carried in C.
      destruct (fromS_close e msg s _ _ SC DC len1 DD NF NG BF BG z C) as (I & q & V & B). exists (phys_dbl s z), q. auto.
Qed.

Lemma to_decl : forall bits mm z v, raw_type_ok s -> unscaledb d = false -> phys_is mm d v -> phys_value d z v -> decl_carries d z -> converts_back d z ->
  to_raw (e_evals e) (e_ctx e) (e_g e) bits mm (tf_decl mm) s /\ recovered d z (tf_decl mm s) /\ decl_carries d (tf_decl mm s).
Proof.
  intros bits mm z v RT US PI PV C CB. destruct (read_names d s RA) as (_ & _ & NM). specialize (NM US). unfold phys_is, phys_name in PI.
  rewrite <- NM, <- phys_object_ty in PI. pose proof (proj1 (carried z) C) as C'. destruct (kinds d) as [(F & G & K)|K].
  - destruct (ints_scaled F G K) as (IS & P & LF & LG). assert (IS' := IS). destruct IS' as (DD & VF & VG). pose proof (phys_held F G z K C) as PH.
    assert (K' := K). destruct K' as [EF EG]. unfold phys_value in PV. rewrite EF, EG in PV. rewrite <- (ints_type F G K) in PV. subst v.
    assert (TF : tf_decl mm s = z).
    { unfold tf_decl. rewrite PI, (int_val_trunc _ _ VF), (int_val_trunc _ _ VG). replace (z * F + G - G) with (z * F) by lia. apply Z.quot_mul. lia. }
    rewrite TF. split; [|split; [unfold recovered; now rewrite EF, EG|exact C]].
    unfold to_raw. intros m MS MA. rewrite PI in MS.
    assert (TO : to_obj (phys_ty s) (VI (s_typephys s) (z * F + G)) = Ok (VI (s_typephys s) (z * F + G))).
    { unfold phys_ty. rewrite DD. cbn [to_obj to_int bind]. now rewrite hold_conv. }
    assert (NB : no_wrap_back s F z).
    { unfold converts_back in CB. rewrite EF, EG in CB. unfold no_wrap_back, no_overflow_back in *. rewrite (ints_type F G K). destruct (is_signed _); auto. }
    pose proof (toS_exact e msg s F G SC IS DC len1 LF LG m z C' (conj MS (conj TO MA)) PH NB) as E.
    destruct (stored_any bits s (s_typero s) z RT len1 C') as (t1 & ST). exists (VI (s_typero s) z), t1. rewrite TF. split; [exact E|exact ST].
  - destruct (numbers K) as (NF & NG & BF & BG). assert (DD : s_double s = true) by (rewrite (ra_double _ _ RA); apply K).
    apply (bd_value _ K) in PV as (x & q & -> & IX & VX & BX). apply (bd_back _ K) in CB.
    pose proof (toS_close e msg s _ _ SC DC len1 DD NF NG BF BG z x q C' IX VX BX CB) as R.
    assert (W : exists w, raw_dbl s x = Some w /\ (w = z \/ w = z - Z.sgn z) /\ carries (s_signed s) (s_len s) w).
    { destruct R as [R|R]; eexists; (split; [exact R|]); (split; [tauto|]); [exact C'|]. eapply step_carries; eauto using len1. }
    destruct W as (w & RW & WZ & CW).
    assert (TF : tf_decl mm s = w) by (unfold tf_decl; now rewrite PI, RW).
    rewrite TF. split; [|split; [now apply (bd_recovered _ K)|now apply carried]].
    unfold to_raw. intros m MS MA. rewrite PI in MS. pose proof (declared_types s DC len1) as TY.
    assert (HR : can_hold (s_typero s) w) by (eapply width_carry; [exact len1|apply TY|apply TY|exact CW]).
    assert (TO : to_obj (phys_ty s) (VD x) = Ok (VD x)) by (unfold phys_ty; now rewrite DD).
    pose proof (toS_dbl e msg s _ _ SC DD NF NG BF BG m x w (conj MS (conj TO MA)) RW HR) as E.
    destruct (stored_any bits s (s_typero s) w RT len1 CW) as (t1 & ST). exists (VI (s_typero s) w), t1. rewrite TF. split; [exact E|exact ST].
Qed.
End Signal.

(** *** Projects *)
Lemma suffix_same : forall a b c : string, (a ++ c)%string = (b ++ c)%string -> a = b.
Proof.
  intros a b c H. assert (L : String.length a = String.length b) by (apply (f_equal String.length) in H; rewrite !app_len in H; lia).
  revert b H L. induction a as [|x a IH]; intros [|y b] H L; cbn [String.length] in L; try lia; [reflexivity|].
  cbn [String.append] in H. injection H as -> H. f_equal. apply IH; auto.
Qed.
Lemma phys_sigs : forall srt text d m s, sorts srt -> scan srt text = Ok d -> In m (d_msgs d) -> In s (g_sigs m) -> s_simple s = false -> g_hasphys m = true.
Proof.
  intros srt text d m s SR H I J SI. pose proof (scan_messages _ _ _ H) as F. destruct (forall2_in_l _ _ _ _ _ _ F I) as (g & _ & m0 & sigs & M).
  rewrite (mf_phys _ _ _ _ _ M). destruct (forall2_in_l _ _ _ _ _ _ (mf_sigs _ _ _ _ _ M) J) as (s0 & K & SS). rewrite (mf_sorted _ _ _ _ _ M) in K.
  apply existsb_exists. exists s0. split.
  - eapply Permutation.Permutation_in; [|exact K]. apply SR.
  - destruct SS as (_ & _ & _ & _ & _ & _ & SS & _). rewrite <- SS, SI. now rewrite orb_true_r.
Qed.

Section Project.
Variables (srt : sorter) (bs : list block) (e : env).
Hypothesis P : project srt bs e.

Lemma pj_header_names : NoDup (header_names (str_toupper (e_drv e)) (e_db e)).
Proof. pose proof (pj_macros _ _ _ P) as ND. now inversion ND. Qed.
Lemma pj_scaled : forall md m d s, In md (file_msgs bs) -> In m (d_msgs (e_db e)) -> scanned md m -> g_notempty m = true ->
  In d (md_sigs md) -> In s (g_sigs m) -> read_as d s -> unscaledb d = false -> one_scaling (file_msgs bs) d -> scaled_in e m s.
Proof.
  intros md m d s IM J S N ID IS RA US ONE. destruct (read_names d s RA) as (NM & SI & _). rewrite US in SI. unfold field_name in NM. rewrite US in NM.
  assert (ON : forall x, In x (conv_names (str_toupper (e_drv e)) (s_name s)) -> once x (e_h e)).
  { intros x IX. eapply names_once; [apply (pj_driver _ _ _ P)|apply (pj_header _ _ _ P)|apply pj_header_names|].
    eapply conv_in; eauto. }
  constructor.
  - eapply pj_program; eauto.
  - auto.
  - auto.
  - intros m' s' J' IS' SI' NM'. destruct (forall2_in_r _ _ _ _ _ _ (pj_scanned _ _ _ P) J') as (md' & IM' & S').
    destruct (sig_of_decl _ _ S' s' IS') as (d' & ID' & RA'). destruct (read_names d' s' RA') as (A & B & _). rewrite SI' in B. symmetry in B.
    unfold field_name in A. rewrite B in A. rewrite A, NM in NM'. apply suffix_same in NM'. destruct (ONE md' d' IM' ID' B NM') as (X & Y & Z).
    rewrite (ra_factor _ _ RA'), (ra_offset _ _ RA'), (ra_double _ _ RA'), (ra_factor _ _ RA), (ra_offset _ _ RA), (ra_double _ _ RA), X, Y.
    repeat split. rewrite (read_type d' s' RA'), (read_type d s RA); auto.
    + now apply (sc_decl _ _ S).
    + now apply (ft_len _ (pj_fits _ _ _ P md IM)).
    + now apply (sc_decl _ _ S').
    + now apply (ft_len _ (pj_fits _ _ _ P md' IM')).
  - destruct (driver_DRV _ _ _ _ _ (pj_driver _ _ _ P)) as (D & _). unfold fromS_name, toS_name. rewrite D. split; apply ON; cbn [conv_names In]; auto.
Qed.
End Project.

(** *** Calls *)
Section Call.
Variables (srt : sorter) (bs : list block) (e : env) (md : msgdecl) (m : message).
Hypothesis P : project srt bs e.
Hypothesis B : floats_on e = true.
Hypothesis I : In md (file_msgs bs).
Hypothesis J : In m (d_msgs (e_db e)).
Hypothesis S : scanned md m.
Hypothesis NE : g_notempty m = true.
Hypothesis CV : convertible (file_msgs bs) md.

Lemma call_sig : forall s, In s (g_sigs m) -> exists d, In d (md_sigs md) /\ read_as d s /\ declared s /\ (1 <= sd_len d <= 64)%N /\ s_simple s = unscaledb d.
Proof.
  intros s IS. destruct (sig_of_decl _ _ S s IS) as (d & ID & RA). exists d. split; [exact ID|]. split; [exact RA|].
  split; [now apply (sc_decl _ _ S)|]. split; [now apply (ft_len _ (pj_fits _ _ _ P md I))|]. apply (read_names d s RA).
Qed.
Lemma call_scaled : forall d s, In d (md_sigs md) -> In s (g_sigs m) -> read_as d s -> unscaledb d = false -> scaled_in e m s.
Proof. intros d s ID IS RA US. eapply pj_scaled; eauto. now apply CV. Qed.
Lemma call_converted : forall s, In s (g_sigs m) -> converted (e_macros e) (e_g e) m s = negb (s_simple s).
Proof.
  intros s IS. unfold converted. unfold floats_on in B. rewrite B, andb_true_r. destruct (s_simple s) eqn:SI; [now rewrite andb_false_r|].
  rewrite (phys_sigs _ _ _ _ s (pj_sort _ _ _ P) (pj_scan _ _ _ P) J IS SI). reflexivity.
Qed.
Lemma call_raw : forall s, In s (g_sigs m) -> raw_type_ok s.
Proof. intros s IS. destruct (scanned_ok md m S (pj_fits _ _ _ P md I) (pj_mdecl _ _ _ P md I)) as (MO & _). apply (MsgSpec.mo_sigs _ MO s IS). Qed.

Lemma struct_phys : forall bits mm, struct_at bits mm md -> phys_struct mm md -> counter_at e bits md mm -> has_struct (floats_on e) (rolls_on e) bits m mm.
Proof.
  intros bits mm H HP CA. pose proof (pj_fits _ _ _ P md I) as F. constructor.
  - intros s IS. destruct (sig_of_decl _ _ S s IS) as (d & ID & R). destruct (read_names d s R) as (N & _). rewrite N, (read_object bits d s R); auto.
    + now apply (sc_decl _ _ S).
    + now apply (ft_len _ F).
  - intros _ s IS SI. destruct (sig_of_decl _ _ S s IS) as (d & ID & R). destruct (read_names d s R) as (_ & X & C). rewrite SI in X. symmetry in X. rewrite (C X).
    rewrite (phys_object_ty d s R); [now apply HP|now apply (sc_decl _ _ S)|now apply (ft_len _ F)|now apply CV].
  - intros X s Y. pose proof (DriverProof.roll_in _ _ Y) as IS. destruct (sig_of_decl _ _ S s IS) as (d & ID & R). destruct (read_names d s R) as (N & _).
    rewrite N, (read_object bits d s R); [|now apply (sc_decl _ _ S)|now apply (ft_len _ F)]. apply CA; [exact ID|]. apply (counter_sig _ _ _ _ _ P I S J d s IS R). now apply rolls_counter.
Qed.
Lemma receives_phys : forall bits data dl mm, unpack_call bits md data dl mm -> phys_struct mm md -> counter_at e bits md mm -> monitored e md mm ->
  exists tick hash hook, receives e m bits data dl tick hash hook pf_decl mm.
Proof.
  intros bits data dl mm [U1 U2 U3] HP CA MN.
  assert (X : exists tick hash hook, monitors_on e = true -> monitors (e_evals e) (e_ctx e) (e_g e) m mm tick hash hook).
  { destruct (monitors_on e) eqn:E.
    - destruct (MN E m (becomes_scanned e md m S J)) as (t & h & k & H). exists t, h, k. auto.
    - exists 0%Z, (fun _ => 0%Z), (fun x => x). discriminate. }
  destruct X as (t & h & k & X). exists t, h, k. constructor.
  - eapply pj_program; eauto.
  - auto.
  - eapply data_payload; eauto.
  - exact U2.
  - now apply struct_phys.
  - intros _ s IS SI. destruct (call_sig s IS) as (d & ID & RA & DC & LN & US). rewrite SI in US. symmetry in US.
    apply (from_decl d s RA DC LN ltac:(now apply CV) e m). eapply call_scaled; eauto.
  - exact X.
Qed.
Lemma sends_phys : forall bits mx data hash mm, pack_call e bits md mx data mm -> computing e bits md hash mm -> plain_sum e md -> phys_struct mm md ->
  (forall d, In d (md_sigs md) -> unscaledb d = false -> exists z v, phys_is mm d v /\ phys_value d z v /\ decl_carries d z /\ converts_back d z) ->
  sends e m bits 0 mx data (tf_decl mm) hash mm.
Proof.
  intros bits mx data hash mm [U1 U2 U3 U4 (U5 & U6)] [C1 C2 C3 C4] PS HP HZ. constructor.
  - eapply pj_program; eauto.
  - auto.
  - intros cs X. pose proof (checksum_in _ _ _ _ X) as IS. destruct (call_sig cs IS) as (d & ID & RA & _ & _ & US).
    pose proof (proj2 (checksum_sig _ _ _ _ _ P I S J d cs IS RA) X) as CD. split; [rewrite (call_converted cs IS), US, (PS d ID CD); reflexivity|].
    intros k K. rewrite (ra_len _ _ RA) in K. rewrite (read_pos d cs k RA), (read_pos d cs 0 RA). now apply C3.
  - eapply data_payload; eauto.
  - intros p t z X. unfold reports in X. destruct (struct_on e).
    + destruct U2 as (A & A' & A''). destruct X as [X|[X|[X|[]]]]; apply pair_equal_spec in X as [X _]; apply pair_equal_spec in X as [<- <-]; auto.
    + destruct U2 as (A & A'). destruct X as [X|[X|[]]]; apply pair_equal_spec in X as [X _]; apply pair_equal_spec in X as [<- <-]; auto.
  - split; [exact U4|lia].
  - split; [exact U5|lia].
  - now apply struct_phys.
  - intros rs X. pose proof (counter_in _ _ _ _ X) as IS. destruct (sig_of_decl _ _ S rs IS) as (d & ID & R). rewrite (ra_signed _ _ R), (ra_len _ _ R).
    apply (C2 d); [exact ID|exact (proj2 (counter_sig _ _ _ _ _ P I S J d rs IS R) X)|]. apply (field_decl d rs mm _ R).
    destruct (read_names d rs R) as (N & _). destruct (U3 d ID) as (v & V & W). destruct (object_int _ _ _ W) as (t & z & ->). rewrite <- N in V.
    unfold field_is, value, int_at. now rewrite V.
  - intros s IS X. rewrite (call_converted s IS) in X. apply negb_true_iff in X. destruct (call_sig s IS) as (d & ID & RA & DC & LN & US).
    rewrite X in US. symmetry in US. destruct (HZ d ID US) as (z & v & A1 & A2 & A3 & A4).
    apply (to_decl d s RA DC LN ltac:(now apply CV) e m ltac:(eapply call_scaled; eauto) bits mm z v); auto. now apply call_raw.
  - intros X. now apply C4; [apply becomes_scanned|].
Qed.
End Call.

Theorem unpack_phys : forall srt bs e md bits data dl mm, project srt bs e -> floats_on e = true -> In md (file_msgs bs) -> md_sigs md <> [] -> short_signed md ->
  convertible (file_msgs bs) md -> unpack_call bits md data dl mm -> phys_struct mm md -> counter_at e bits md mm -> monitored e md mm ->
  exists mm', unpack_decl e md mm = Ok (mm', Some (VI U32 (frame_id md))) /\
    forall d, In d (md_sigs md) -> decl_exact d -> decl_is mm' d (decl_value d data) /\
      (unscaledb d = false -> exists v, phys_is mm' d v /\ phys_value d (decl_value d data) v).
Proof.
  intros srt bs e md bits data dl mm P B I NE SS CV U HP CA MN. destruct (project_msg _ _ _ _ P I NE) as (m & J & S & N).
  destruct (receives_phys _ _ _ _ _ P I J S N CV _ _ _ _ U HP CA MN) as (tick & hash & hook & R). pose proof (short_fit _ _ S SS) as SF.
  destruct (CodecThms.receive_run _ _ _ _ _ _ _ _ _ _ R SF) as (m1 & RUN & UT & _). rewrite B in UT.
  exists m1. split.
  - unfold unpack_decl, frame_id. unfold unpack, unpack_name in RUN. rewrite (rm_name _ _ (sc_read _ _ S)), (rm_id _ _ (sc_read _ _ S)) in RUN. exact RUN.
  - intros d ID EX. destruct (decl_of_sig _ _ S d ID) as (s & IS & RA). pose proof (proj2 (exact_decl d s RA) EX) as EX'.
    pose proof (ur_fields _ _ _ _ _ _ _ _ UT s IS EX') as FI. rewrite (value_decl d s data RA) in FI. split; [now apply (field_decl d s m1 _ RA)|].
    intros US. destruct (read_names d s RA) as (_ & SI & NM). rewrite US in SI. specialize (NM US).
    pose proof (ur_float _ _ _ _ _ _ _ _ UT s IS SI EX') as UF. cbn iota in UF. rewrite (value_decl d s data RA), NM in UF.
    pose proof (sc_decl _ _ S s IS) as DC. pose proof (ft_len _ (pj_fits _ _ _ P md I) d ID) as LN. destruct (CV d ID US) as [CD ONE].
    rewrite (phys_object_ty d s RA DC LN CD) in UF. exists (pf_decl s (decl_value d data)). split; [exact UF|].
    apply (from_decl d s RA DC LN CD e m ltac:(eapply pj_scaled; eauto) bits).
    destruct (ur_range _ _ _ _ _ _ _ _ UT s IS) as (z & FZ & CZ & _). unfold field_is in FZ, FI. rewrite FZ in FI. assert (z = decl_value d data) as <- by congruence.
    now apply (carried d s RA).
Qed.

Theorem pack_phys : forall srt bs e md bits mx data hash mm raw, project srt bs e -> floats_on e = true -> In md (file_msgs bs) -> md_sigs md <> [] -> disjoint_bits md ->
  convertible (file_msgs bs) md -> pack_call e bits md mx data mm -> computing e bits md hash mm -> plain_sum e md -> phys_struct mm md -> phys_of mm md raw ->
  exists mm' data', pack_decl e md mm = Ok (mm', Some (VI U32 (frame_id md))) /\ frame e mm' data' /\
    (forall d z, In d (md_sigs md) -> unscaledb d = true -> ~ counter_decl e md d -> ~ checksum_decl e md d -> decl_is mm d z -> carried_bits d data' z) /\
    (forall d z, In d (md_sigs md) -> unscaledb d = true -> counter_decl e md d -> ~ checksum_decl e md d -> decl_is mm d z -> carried_bits d data' (z + 1)) /\
    (forall d, In d (md_sigs md) -> unscaledb d = false -> exists w, recovered d (raw d) w /\ decl_carries d w /\ carried_bits d data' w) /\
    (forall d, In d (md_sigs md) -> checksum_decl e md d -> exists data0, cleared d data' data0 /\ carried_bits d data' (hash data0)) /\
    (forall p, (0 <= p < 8 * Z.of_N (md_dlc md))%Z -> (forall d, In d (md_sigs md) -> ~ decl_covers d p) -> payload_bit data' p = false).
Proof.
  intros srt bs e md bits mx data hash mm raw P B I NE DB CV U CG PS HP PO. destruct (project_msg _ _ _ _ P I NE) as (m & J & S & N).
  pose proof (pj_fits _ _ _ P md I) as F.
  assert (R : sends e m bits 0 mx data (tf_decl mm) hash mm).
  { apply (sends_phys _ _ _ _ _ P B I J S N CV _ _ _ _ _ U CG PS HP). intros d ID US. destruct (PO d ID US) as (A1 & A2 & v & A3 & A4). exists (raw d), v. auto. }
  destruct U as [_ _ _ _ (_ & MX)].
  destruct (pack_parts _ _ _ _ _ _ _ _ _ _ _ P I S J DB R ltac:(lia)) as (m1 & d1 & RUN & FR & PL & CT & SC & CS & UC). exists m1, d1.
  assert (UN : forall d s, In d (md_sigs md) -> In s (g_sigs m) -> read_as d s -> converted (e_macros e) (e_g e) m s = negb (unscaledb d)).
  { intros d s ID IS RA. rewrite (call_converted srt bs e m P B J s IS). destruct (read_names d s RA) as (_ & SI & _). now rewrite SI. }
  split; [exact RUN|]. split; [exact FR|]. split; [|split; [|split; [|split; [exact CS|exact UC]]]].
  - intros d z ID US NC NS IA k K. destruct (decl_of_sig _ _ S d ID) as (s & IS & RA). apply (PL d s z k); auto. rewrite (UN d s), US by auto. reflexivity.
  - intros d z ID US NC NS IA k K. destruct (decl_of_sig _ _ S d ID) as (s & IS & RA). apply (CT d s z k); auto. rewrite (UN d s), US by auto. reflexivity.
  - intros d ID US. destruct (decl_of_sig _ _ S d ID) as (s & IS & RA). exists (tf_decl mm s).
    destruct (PO d ID US) as (A1 & A2 & v & A3 & A4). pose proof (sc_decl _ _ S s IS) as DC.
    pose proof (ft_len _ F d ID) as LN. destruct (CV d ID US) as [CD ONE].
    destruct (to_decl d s RA DC LN CD e m ltac:(eapply pj_scaled; eauto) bits mm (raw d) v) as (_ & X & Y); auto.
    { eapply call_raw; eauto. }
    split; [exact X|]. split; [exact Y|]. intros k K. apply (SC d s k); auto; [rewrite (UN d s), US by auto; reflexivity|].
    intros CD'. specialize (PS d ID CD'). congruence.
Qed.

(** a frame packed from physical values by one program and unpacked by another made from the same file *)
Theorem phys_sent_and_received : forall srt1 srt2 bs e1 e2 md bits1 bits2 mx data hash mm1 mm2 dl data2 raw,
  project srt1 bs e1 -> floats_on e1 = true -> project srt2 bs e2 -> floats_on e2 = true -> In md (file_msgs bs) -> md_sigs md <> [] -> disjoint_bits md -> short_signed md ->
  convertible (file_msgs bs) md -> pack_call e1 bits1 md mx data mm1 -> computing e1 bits1 md hash mm1 -> plain_sum e1 md -> phys_struct mm1 md -> phys_of mm1 md raw ->
  unpack_call bits2 md data2 dl mm2 -> phys_struct mm2 md -> counter_at e2 bits2 md mm2 -> monitored e2 md mm2 ->
  exists mm1' data' mm2', pack_decl e1 md mm1 = Ok (mm1', Some (VI U32 (frame_id md))) /\ frame e1 mm1' data' /\
    (firstn (N.to_nat (md_dlc md)) data2 = firstn (N.to_nat (md_dlc md)) data' ->
       unpack_decl e2 md mm2 = Ok (mm2', Some (VI U32 (frame_id md))) /\
       forall d, In d (md_sigs md) -> decl_exact d ->
         (unscaledb d = true -> ~ counter_decl e1 md d -> ~ checksum_decl e1 md d -> forall z, decl_is mm1 d z -> decl_carries d z -> decl_is mm2' d z) /\
         (unscaledb d = false -> exists w v, recovered d (raw d) w /\ decl_is mm2' d w /\ phys_is mm2' d v /\ phys_value d w v)).
Proof.
  intros srt1 srt2 bs e1 e2 md bits1 bits2 mx data hash mm1 mm2 dl data2 raw P1 B1 P2 B2 I NE DB SS CV U1 CG PS H1 PO U2 H2 CA MN.
  destruct (pack_phys _ _ _ _ _ _ _ _ _ _ P1 B1 I NE DB CV U1 CG PS H1 PO) as (m1 & d1 & RUN & FR & BP & _ & BS & _).
  destruct (unpack_phys _ _ _ _ _ _ _ _ P2 B2 I NE SS CV U2 H2 CA MN) as (m2 & RUN2 & H). exists m1, d1, m2. split; [exact RUN|]. split; [exact FR|].
  intros E. split; [exact RUN2|]. intros d ID EX. destruct (H d ID EX) as (HR & HPV). split.
  - intros US NC NS z IA C. rewrite <- (received _ _ _ _ d z data2 d1 P1 I ID E (BP d z ID US NC NS IA) C). exact HR.
  - intros US. destruct (BS d ID US) as (w & R & C & BT). destruct (HPV US) as (v & A1 & A2). exists w, v.
    rewrite (received _ _ _ _ d w data2 d1 P1 I ID E BT C) in *. auto.
Qed.
