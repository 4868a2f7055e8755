(** Receive in a program made from a DBC file. *)

From Coq Require Import ZArith NArith List String Ascii Bool Lia ZifyBool Permutation Sorted.
From Verif Require Import Base Dbl CSyntax CSem CRun Types Formatter Settings MainGen UtilGen App LineParser Scanner LexLemmas ScanPass1 PPProof CodecSpec MsgSpec DriverSpec HeaderSpec
  HeaderProof ScanSpec ScanThms StructSpec SigSpec NamesSpec HeaderNames NamesThms CodecEnv CodecThms UtilSpec UtilThms DeclSpec DeclThms PhysSpec PhysDecl RecvSpec.
Import ListNotations.
Open Scope Z_scope.

(** *** Receivers *)
Lemma recs_of : forall srt text d m, scan srt text = Ok d -> In m (d_msgs d) ->
  forall x, In x (g_recs m) <-> exists sg, In sg (g_sigs m) /\ In x (s_recs sg).
Proof.
  intros srt text d m H I x. destruct (forall2_in_l _ _ _ _ _ _ (scan_messages _ _ _ H) I) as (g & _ & m0 & sigs & [_ _ _ _ _ _ G RE _ _]).
  rewrite RE. destruct (recs_spec (flat_map s_recs sigs)) as [_ J]. rewrite J, in_flat_map.
  clear - G. induction G as [|u v a b R G IH]; [split; intros (s & [] & _)|].
  assert (RR : s_recs u = s_recs v) by apply R. cbn [In]. split.
  - intros (s & [<-|S] & X); [exists u; split; [now left|congruence]|]. destruct (proj1 IH (ex_intro _ s (conj S X))) as (t & T & Y). exists t; auto.
  - intros (s & [<-|S] & X); [exists v; split; [now left|congruence]|]. destruct (proj2 IH (ex_intro _ s (conj S X))) as (t & T & Y). exists t; auto.
Qed.

(** *** The version is two 32-bit numbers, so the tool always writes utility files *)
Lemma version_range : forall line hi low, find_version line = Ok (Some (hi, low)) -> 0 <= hi < 2 ^ 32 /\ 0 <= low < 2 ^ 32.
Proof.
  assert (X : forall s z, stoul32 s = Ok z -> 0 <= z < 2 ^ 32).
  { intros s z H. unfold stoul32 in H. repeat match type of H with context[match ?x with _ => _ end] => destruct x end; try discriminate H; injection H as <-; apply Z.mod_pos_bound; lia. }
  intros line hi low H. unfold find_version in H. destruct (match_version line) as [[[w a] b]|]; [|discriminate].
  destruct (stoul32 a) as [x| |] eqn:A; try discriminate. destruct (stoul32 b) as [y| |] eqn:B; try discriminate. cbn [bind] in H.
  destruct (String.eqb _ _); [|discriminate]. injection H as <- <-. eauto.
Qed.
Lemma scan_version : forall srt text d, scan srt text = Ok d -> 0 <= d_verhi d < 2 ^ 32 /\ 0 <= d_verlow d < 2 ^ 32.
Proof.
  intros srt text d H. destruct (scan_passes _ _ _ H) as (d1 & Q & _ & _ & -> & ->). unfold parse_message_info in Q.
  destruct (fold_res _ _ _) as [st| |] eqn:E; try discriminate. cbn [bind] in Q. injection Q as <-. cbn [d_verhi d_verlow].
  destruct (pass1_version _ _ _ _ E) as (vs & F & G). cbn [p_hi p_low] in G.
  assert (X : forall vs ls (a : Z * Z), Forall2 (fun raw v => find_version (str_trim raw) = Ok v) ls vs -> 0 <= fst a < 2 ^ 32 /\ 0 <= snd a < 2 ^ 32 ->
    let b := fold_left (fun a v => match v with Some p => p | None => a end) vs a in 0 <= fst b < 2 ^ 32 /\ 0 <= snd b < 2 ^ 32).
  { clear. induction vs as [|v vs IH]; intros ls a F A; [exact A|]. inversion F as [|x y l k X K]; subst. cbn [fold_left]. apply (IH l); [exact K|].
    destruct v as [[hi low]|]; [|exact A]. apply version_range in X. exact X. }
  specialize (X vs (getlines text) (0, 0) F ltac:(cbn; lia)). cbv zeta in X. rewrite <- G in X. exact X.
Qed.

Section Receive.
Variables (srt : sorter) (bs : list block) (e : env).
Hypothesis P : project srt bs e.

Lemma scanned_for : forall who md m, scanned md m -> In m (d_msgs (e_db e)) -> (declared_for who md <-> UtilSpec.received who m).
Proof.
  intros who md m S J. unfold declared_for, UtilSpec.received. rewrite (sc_some _ _ S).
  assert (NE : md_sigs md <> [] <-> negb (match md_sigs md with [] => true | _ => false end) = true) by (destruct (md_sigs md); cbn; split; congruence).
  rewrite NE. destruct who as [n|]; [|tauto]. rewrite (recs_of _ _ _ _ (pj_scan _ _ _ P) J).
  assert (X : (exists d, In d (md_sigs md) /\ In n (sd_recs d)) <-> (exists sg, In sg (g_sigs m) /\ In n (s_recs sg))); [|tauto]. split.
  - intros (d & ID & N). destruct (decl_of_sig _ _ S d ID) as (s & IS & R). exists s. split; [exact IS|]. now rewrite (ra_recs _ _ R).
  - intros (s & IS & N). destruct (sig_of_decl _ _ S s IS) as (d & ID & R). exists d. split; [exact ID|]. now rewrite <- (ra_recs _ _ R).
Qed.
Lemma ids_of : map g_id (d_msgs (e_db e)) = map frame_id (file_msgs bs).
Proof.
  pose proof (pj_scanned _ _ _ P) as F. induction F as [|md m ds ms S F IH]; [reflexivity|]. cbn [map]. rewrite (rm_id _ _ (sc_read _ _ S)). f_equal. exact IH.
Qed.
Lemma id_range : forall md m, In md (file_msgs bs) -> scanned md m -> In m (d_msgs (e_db e)) -> 0 <= g_id m < 2 ^ 32.
Proof.
  intros md m I S J. pose proof (MsgSpec.mo_id _ (pm_ok srt bs e md m P I S)). change (2 ^ 29) with 536870912 in *. change (2 ^ 32) with 4294967296. lia.
Qed.
Lemma local_macro : forall x, In x ["_id"; "recid"]%string -> lookup x (e_conf e) = None -> lookup x (after_header (e_conf e) (e_h e)) = None.
Proof.
  intros x I L. pose proof (pj_driver _ _ _ P) as DR. rewrite not_defined; [exact L|]. intros J.
  apply (Permutation_in _ (driver_names _ _ _ _ _ DR (pj_header _ _ _ P))) in J. apply (inner_names _ _ _ _ _ _ DR) in J.
  destruct J as (a & b & E & NA & NB). cbn [In] in I.
  destruct I as [<-|[<-|[]]]; (destruct a as [|? [|? [|? [|? [|? [|? a]]]]]]; cbn [String.append] in E; congruence).
Qed.
Lemma companion_utility : forall who h c, companion e who h c -> utility (e_drv e) (e_db e) who h c.
Proof.
  intros who h c [R N]. constructor.
  - exact R.
  - apply (pj_drv _ _ _ P).
  - exact N.
  - intros m J. destruct (forall2_in_r _ _ _ _ _ _ (pj_scanned _ _ _ P) J) as (md & I & S). destruct (ft_name _ (pj_fits _ _ _ P md I)) as [A B].
    rewrite (rm_name _ _ (sc_read _ _ S)). split; [exact A|]. split; [exact B|]. eapply id_range; eauto.
Qed.

(** Receive does what Unpack does *)
Lemma receive_unpacks : forall who h c md mm m1, companion e who h c -> NoDup (map frame_id (file_msgs bs)) -> receive_free e ->
  In md (file_msgs bs) -> declared_for who md -> id_is mm (frame_id md) ->
  unpack_decl e md (inside (md_name md) mm) = Ok (m1, Some (VI U32 (frame_id md))) ->
  exists mm', receive e who c mm = Ok (mm', Some (VI U32 (frame_id md))) /\
    (forall f, m_scal mm' (sub_path (md_name md) f) = m_scal m1 (member f)) /\ rest_kept md mm mm'.
Proof.
  intros who h c md mm m1 C N (F1 & F2) I D (Ei & _) U. destruct (project_msg _ _ _ _ P I (proj1 D)) as (m & J & S & NE).
  pose proof (rm_name _ _ (sc_read _ _ S)) as E1. pose proof (rm_id _ _ (sc_read _ _ S)) as E2. change (Z.of_N (plain_id (md_id md))) with (frame_id md) in E2.
  destruct (receive_linked e who h c mm m m1 (pj_program _ _ _ P) (companion_utility _ _ _ C) ltac:(rewrite ids_of; exact N)
    (local_macro "_id" ltac:(cbn; auto) F1) (local_macro "recid" ltac:(cbn; auto) F2) J (proj1 (scanned_for who md m S J) D)) as (mm' & R & A & B & K).
  - now rewrite E2.
  - rewrite E1, E2. unfold unpack, unpack_name. rewrite E1. exact U.
  - rewrite E1, E2 in *. exists mm'. split; [exact R|]. split; [exact A|]. split; [exact B|exact K].
Qed.
End Receive.

Theorem receive_declared : forall srt bs e who h c md bits data dl mm, project srt bs e -> floats_on e = false ->
  companion e who h c -> NoDup (map frame_id (file_msgs bs)) -> receive_free e ->
  In md (file_msgs bs) -> declared_for who md -> short_signed md -> id_is mm (frame_id md) ->
  unpack_call bits md data dl (inside (md_name md) mm) -> counter_at e bits md (inside (md_name md) mm) -> monitored e md (inside (md_name md) mm) ->
  exists mm', receive e who c mm = Ok (mm', Some (VI U32 (frame_id md))) /\
    (forall d, In d (md_sigs md) -> decl_exact d -> slot_is mm' md d (decl_value d data)) /\ rest_kept md mm mm'.
Proof.
  intros srt bs e who h c md bits data dl mm P FL C N F I D SS Ei U CA MN.
  destruct (unpack_declared _ _ _ _ _ _ _ _ P FL I (proj1 D) SS U CA MN) as (m1 & RUN & H).
  destruct (receive_unpacks _ _ _ P who h c md mm m1 C N F I D Ei RUN) as (mm' & R & A & K). exists mm'. split; [exact R|]. split; [|exact K].
  intros d ID EX. specialize (H d ID EX). unfold slot_is, decl_is, int_at in *. now rewrite A.
Qed.

Theorem receive_phys : forall srt bs e who h c md bits data dl mm, project srt bs e -> floats_on e = true ->
  companion e who h c -> NoDup (map frame_id (file_msgs bs)) -> receive_free e ->
  In md (file_msgs bs) -> declared_for who md -> short_signed md -> convertible (file_msgs bs) md -> id_is mm (frame_id md) ->
  unpack_call bits md data dl (inside (md_name md) mm) -> phys_struct (inside (md_name md) mm) md ->
  counter_at e bits md (inside (md_name md) mm) -> monitored e md (inside (md_name md) mm) ->
  exists mm', receive e who c mm = Ok (mm', Some (VI U32 (frame_id md))) /\
    (forall d, In d (md_sigs md) -> decl_exact d -> slot_is mm' md d (decl_value d data) /\
       (unscaledb d = false -> exists v, m_scal mm' (sub_path (md_name md) (phys_name d)) = Some (phys_object d, v) /\ phys_value d (decl_value d data) v)) /\
    rest_kept md mm mm'.
Proof.
  intros srt bs e who h c md bits data dl mm P FL C N F I D SS CV Ei U PS CA MN.
  destruct (unpack_phys _ _ _ _ _ _ _ _ P FL I (proj1 D) SS CV U PS CA MN) as (m1 & RUN & H).
  destruct (receive_unpacks _ _ _ P who h c md mm m1 C N F I D Ei RUN) as (mm' & R & A & K). exists mm'. split; [exact R|]. split; [|exact K].
  intros d ID EX. destruct (H d ID EX) as [H1 H2]. split; [unfold slot_is, decl_is, int_at in *; now rewrite A|].
  intros SC. destruct (H2 SC) as (v & PV & Q). exists v. split; [|exact Q]. rewrite A. exact PV.
Qed.

Theorem receive_ignored : forall srt bs e who h c mm i, project srt bs e -> companion e who h c -> NoDup (map frame_id (file_msgs bs)) -> receive_free e ->
  (exists md, In md (file_msgs bs) /\ declared_for who md) -> id_is mm i ->
  (forall md, In md (file_msgs bs) -> declared_for who md -> frame_id md <> i) ->
  exists mm', receive e who c mm = Ok (mm', Some (VI U32 0)) /\ (forall p, p <> "recid"%string -> m_scal mm' p = m_scal mm p) /\ m_arr mm' = m_arr mm.
Proof.
  intros srt bs e who h c mm i P C N (F1 & F2) (md & I & D) (Ei & R) NO. exists (zero_recid mm).
  split; [|split; [|reflexivity]].
  - unfold receive. eapply receive_unmapped; eauto.
    + eapply companion_utility; eauto.
    + rewrite (ids_of _ _ _ P). exact N.
    + destruct (project_msg _ _ _ _ P I (proj1 D)) as (m & J & S & _). exists m. split; [exact J|]. now apply (scanned_for _ _ _ P who md m S J).
    + eapply local_macro; eauto. cbn. auto.
    + eapply local_macro; eauto. cbn. auto.
    + intros m J RM. destruct (forall2_in_r _ _ _ _ _ _ (pj_scanned _ _ _ P) J) as (md' & I' & S). rewrite (rm_id _ _ (sc_read _ _ S)).
      apply (NO md' I'). now apply (scanned_for _ _ _ P who md' m S J).
  - intros p NP. unfold zero_recid, set_scal, upd. cbn [m_scal]. destruct (String.eqb_spec p "recid"); [contradiction|reflexivity].
Qed.

(** from one node to another *)
Theorem sent_over_network : forall srt1 srt2 bs e1 e2 who h c md bits1 bits2 mx data hash mm1 mm2 dl data2,
  project srt1 bs e1 -> floats_on e1 = false -> project srt2 bs e2 -> floats_on e2 = false ->
  companion e2 who h c -> NoDup (map frame_id (file_msgs bs)) -> receive_free e2 ->
  In md (file_msgs bs) -> declared_for who md -> disjoint_bits md -> short_signed md ->
  pack_call e1 bits1 md mx data mm1 -> computing e1 bits1 md hash mm1 -> id_is mm2 (frame_id md) ->
  unpack_call bits2 md data2 dl (inside (md_name md) mm2) -> counter_at e2 bits2 md (inside (md_name md) mm2) -> monitored e2 md (inside (md_name md) mm2) ->
  exists mm1' data' mm2', pack_decl e1 md mm1 = Ok (mm1', Some (VI U32 (frame_id md))) /\ frame e1 mm1' data' /\
    (firstn (N.to_nat (md_dlc md)) data2 = firstn (N.to_nat (md_dlc md)) data' ->
       receive e2 who c mm2 = Ok (mm2', Some (VI U32 (frame_id md))) /\ rest_kept md mm2 mm2' /\
       forall d z, In d (md_sigs md) -> decl_exact d -> ~ checksum_decl e1 md d -> decl_is mm1 d z ->
         (~ counter_decl e1 md d -> decl_carries d z -> slot_is mm2' md d z) /\
         (counter_decl e1 md d -> sd_signed d = false -> slot_is mm2' md d ((z + 1) mod 2 ^ Z.of_N (sd_len d)))).
Proof.
  intros srt1 srt2 bs e1 e2 who h c md bits1 bits2 mx data hash mm1 mm2 dl data2 P1 B1 P2 B2 C N F I D DB SS U1 CG Ei U2 CA MN.
  destruct (sent_and_received _ _ _ _ _ _ _ _ _ _ _ _ _ _ _ P1 B1 P2 B2 I (proj1 D) DB SS U1 CG U2 CA MN) as (m1 & d1 & m2 & RUN & FR & H).
  destruct (receive_declared _ _ _ who h c md bits2 data2 dl mm2 P2 B2 C N F I D SS Ei U2 CA MN) as (mm' & R & V & K).
  exists m1, d1, mm'. split; [exact RUN|]. split; [exact FR|]. intros E. split; [exact R|]. split; [exact K|].
  destruct (H E) as [UN VAL]. clear H.
  destruct (receive_unpacks _ _ _ P2 who h c md mm2 m2 C N F I D Ei UN) as (mm'' & R2 & A & _). assert (mm'' = mm') by congruence. subst mm''.
  intros d z ID EX NS Z. destruct (VAL d z ID EX NS Z) as [V1 V2]. split; intros; unfold slot_is, int_at; rewrite A; [apply V1|apply V2]; assumption.
Qed.

Theorem phys_over_network : forall srt1 srt2 bs e1 e2 who h c md bits1 bits2 mx data hash mm1 mm2 dl data2 raw,
  project srt1 bs e1 -> floats_on e1 = true -> project srt2 bs e2 -> floats_on e2 = true ->
  companion e2 who h c -> NoDup (map frame_id (file_msgs bs)) -> receive_free e2 ->
  In md (file_msgs bs) -> declared_for who md -> disjoint_bits md -> short_signed md -> convertible (file_msgs bs) md ->
  pack_call e1 bits1 md mx data mm1 -> computing e1 bits1 md hash mm1 -> plain_sum e1 md -> phys_struct mm1 md -> phys_of mm1 md raw ->
  id_is mm2 (frame_id md) -> unpack_call bits2 md data2 dl (inside (md_name md) mm2) -> phys_struct (inside (md_name md) mm2) md ->
  counter_at e2 bits2 md (inside (md_name md) mm2) -> monitored e2 md (inside (md_name md) mm2) ->
  exists mm1' data' mm2', pack_decl e1 md mm1 = Ok (mm1', Some (VI U32 (frame_id md))) /\ frame e1 mm1' data' /\
    (firstn (N.to_nat (md_dlc md)) data2 = firstn (N.to_nat (md_dlc md)) data' ->
       receive e2 who c mm2 = Ok (mm2', Some (VI U32 (frame_id md))) /\ rest_kept md mm2 mm2' /\
       forall d, In d (md_sigs md) -> decl_exact d ->
         (unscaledb d = true -> ~ counter_decl e1 md d -> ~ checksum_decl e1 md d -> forall z, decl_is mm1 d z -> decl_carries d z -> slot_is mm2' md d z) /\
         (unscaledb d = false -> exists w v, recovered d (raw d) w /\ slot_is mm2' md d w /\
            m_scal mm2' (sub_path (md_name md) (phys_name d)) = Some (phys_object d, v) /\ phys_value d w v)).
Proof.
  intros srt1 srt2 bs e1 e2 who h c md bits1 bits2 mx data hash mm1 mm2 dl data2 raw P1 B1 P2 B2 C N F I D DB SS CV U1 CG PL PS1 PO Ei U2 PS2 CA MN.
  destruct (phys_sent_and_received _ _ _ _ _ _ _ _ _ _ _ _ _ _ _ _ P1 B1 P2 B2 I (proj1 D) DB SS CV U1 CG PL PS1 PO U2 PS2 CA MN) as (m1 & d1 & m2 & RUN & FR & H).
  destruct (receive_phys _ _ _ who h c md bits2 data2 dl mm2 P2 B2 C N F I D SS CV Ei U2 PS2 CA MN) as (mm' & R & V & K).
  exists m1, d1, mm'. split; [exact RUN|]. split; [exact FR|]. intros E. split; [exact R|]. split; [exact K|].
  destruct (H E) as [UN VAL]. clear H.
  destruct (receive_unpacks _ _ _ P2 who h c md mm2 m2 C N F I D Ei UN) as (mm'' & R2 & A & _). assert (mm'' = mm') by congruence. subst mm''.
  intros d ID EX. destruct (VAL d ID EX) as [V1 V2]. split.
  - intros. unfold slot_is, int_at. rewrite A. apply V1; assumption.
  - intros S. destruct (V2 S) as (w & v & W1 & W2 & W3 & W4). exists w, v. split; [exact W1|]. unfold slot_is, int_at. rewrite !A. auto.
Qed.

(** the receive struct *)
Theorem receive_struct : forall srt bs e who h c M, project srt bs e -> companion e who h c -> clean h -> NoDup (map frame_id (file_msgs bs)) ->
  exists rx, (forall md, In md rx <-> In md (file_msgs bs) /\ declared_for who md) /\
    StronglySorted (fun a b => frame_id a < frame_id b) rx /\
    (rx <> [] -> declares (text_toks M h) (util_name (e_drv e) who ++ "_rx_t") (map slot_of rx)).
Proof.
  intros srt bs e who h c M P C CL N. pose proof N as N'. rewrite <- (ids_of _ _ _ P) in N'.
  destruct (header_declares _ _ _ _ _ M (companion_utility _ _ _ P _ _ _ C) CL) as (rx & _ & P1 & S1 & _ & _ & D1 & _).
  assert (IN : forall m, In m rx <-> In m (d_msgs (e_db e)) /\ UtilSpec.received who m).
  { intros m. rewrite <- (rx_of_in _ who m N'). split; apply Permutation_in; [exact P1|now apply Permutation_sym]. }
  assert (ND : NoDup (map g_id rx)).
  { apply (Permutation_NoDup (l := map g_id (rx_of (e_db e) who))); [apply Permutation_map; now apply Permutation_sym|]. now apply nodup_filter. }
  assert (DS : exists ds, Forall2 (fun md m => In md (file_msgs bs) /\ scanned md m) ds rx).
  { assert (X : forall m, In m rx -> exists md, In md (file_msgs bs) /\ scanned md m).
    { intros m J. apply IN in J as [J _]. destruct (forall2_in_r _ _ _ _ _ _ (pj_scanned _ _ _ P) J) as (md & I & S). eauto. }
    clear - X. induction rx as [|m rx IH]; [exists []; constructor|]. destruct IH as (ds & F); [intros; apply X; now right|].
    destruct (X m (or_introl eq_refl)) as (md & I & S). exists (md :: ds). constructor; auto. }
  destruct DS as (ds & F). exists ds.
  assert (ID : map frame_id ds = map g_id rx).
  { clear - F. induction F as [|md m ds ms [_ S] F IH]; [reflexivity|]. cbn [map]. rewrite (rm_id _ _ (sc_read _ _ S)). f_equal. exact IH. }
  assert (SL : map slot_of ds = map slot rx).
  { clear - F. induction F as [|md m ds ms [_ S] F IH]; [reflexivity|]. cbn [map]. f_equal; [|exact IH]. unfold slot_of, slot. now rewrite (rm_name _ _ (sc_read _ _ S)). }
  split; [|split].
  - intros md. split.
    + intros I. destruct (forall2_in_l _ _ _ _ _ _ F I) as (m & J & A & S). split; [exact A|]. apply IN in J as [J R]. now apply (scanned_for _ _ _ P who md m S J).
    + intros [I D]. destruct (project_msg _ _ _ _ P I (proj1 D)) as (m & J & S & _).
      assert (JR : In m rx) by (apply IN; split; [exact J|now apply (scanned_for _ _ _ P who md m S J)]).
      destruct (forall2_in_r _ _ _ _ _ _ F JR) as (md' & I' & A & S'). assert (md' = md); [|now subst].
      eapply nodup_inj; [exact N|exact A|exact I|]. pose proof (rm_id _ _ (sc_read _ _ S)) as E1. pose proof (rm_id _ _ (sc_read _ _ S')) as E2. unfold frame_id. congruence.
  - assert (X : forall l k, map frame_id l = map g_id k -> StronglySorted (fun a b => g_id a <= g_id b) k -> NoDup (map g_id k) -> StronglySorted (fun a b => frame_id a < frame_id b) l).
    { clear. induction l as [|a l IH]; intros [|b k] E S U; try discriminate E; constructor; cbn [map] in *; injection E as E1 E2; inversion S; inversion U; subst.
      - eapply IH; eauto.
      - rewrite Forall_forall in *. intros x X. assert (Y : In (frame_id x) (map g_id k)) by (rewrite <- E2; now apply in_map).
        apply in_map_iff in Y as (y & Y1 & Y2). rewrite E1, <- Y1. match goal with Q : forall x, In x k -> _ |- _ => specialize (Q y Y2) end.
        assert (g_id b <> g_id y); [|lia]. intros Q. match goal with NI : ~ In _ _ |- _ => apply NI end. rewrite Q. now apply in_map. }
    eapply X; eauto.
  - intros NE. rewrite SL. apply D1. intros ->. inversion F; subst; contradiction.
Qed.

(** the files for a node are always written, whatever the options *)
Theorem companion_written : forall srt bs e who srt2 out date dbc nc ni nf, project srt bs e -> orders srt2 ->
  match date with Some t => no_nl t = true | None => True end -> no_nl dbc = true ->
  is_ident (util_name (e_drv e) who) = true -> (String.length (util_name (e_drv e) who) <= 2000)%nat ->
  let s := util_settings (e_drv e) who (configure (e_drv e) out (common_info date) (driver_info dbc) (d_verhi (e_db e)) (d_verlow (e_db e)) nc ni nf) in
  exists h c, generate_util srt2 (e_db e) s (util_groups (e_db e) who) (e_drv e) = [(f_utilh_path (st_f s), h); (f_utilc_path (st_f s), c)] /\ companion e who h c.
Proof.
  intros srt bs e who srt2 out date dbc nc ni nf P O D N I L s. destruct (scan_version _ _ _ (pj_scan _ _ _ P)) as [V1 V2].
  do 2 eexists. split; [reflexivity|]. constructor; [|auto].
  exists srt2, out, date, dbc, nc, ni, nf. do 2 eexists. cbv zeta. split; [exact O|]. split; [exact D|]. split; [exact N|]. split; [exact V1|]. split; [exact V2|reflexivity].
Qed.
