(** Value tables and identification in drivers with signal conversion. *)

From Coq Require Import ZArith NArith List String Ascii Bool Lia ZifyBool Permutation.
From Verif Require Import Base Dbl CSyntax CSem CRun Types Formatter Settings MainGen LineParser Scanner App CodecSpec MsgSpec DriverSpec HeaderSpec HeaderRun
  ScanSpec ScanThms SigSpec NamesSpec CodecEnv CodecThms CodecFacts DeclSpec DeclThms PhysSpec PhysDecl CmpSpec CmpProof IdentProof.
Import ListNotations.
Open Scope string_scope.
Open Scope Z_scope.

Theorem table_decodes_phys : forall srt bs e es md bits data dl mm, project srt bs e -> read_entries srt (file_text bs) (e_db e) es -> floats_on e = true ->
  In md (file_msgs bs) -> md_sigs md <> [] -> short_signed md -> convertible (file_msgs bs) md ->
  unpack_call bits md data dl mm -> phys_struct mm md -> counter_at e bits md mm -> DeclSpec.monitored e md mm ->
  exists mm', unpack_decl e md mm = Ok (mm', Some (VI U32 (frame_id md))) /\
    forall d w desc n C, In d (md_sigs md) -> decl_exact d -> unscaled d -> table_entry es md d w desc -> comparable d w ->
      lookup (entry_macro_name md d desc) (e_conf e) = None -> c_macros C = after_header (e_conf e) (e_h e) ->
      eval (S n) C mm' [] (comparison md d desc) = Ok (vbool (decl_value d data =? w)).
Proof.
  intros srt bs e es md bits data dl mm P RE B I NE SS CV U HP CA MN. destruct (project_msg _ _ _ _ P I NE) as (m & J & S & N).
  destruct (receives_phys _ _ _ _ _ P I J S N CV _ _ _ _ U HP CA MN) as (tick & hash & hook & R). pose proof (short_fit _ _ S SS) as SF.
  destruct (receive_run _ _ _ _ _ _ _ _ _ _ R SF) as (m1 & RUN & UR & _). destruct (unpack_phys _ _ _ _ _ _ _ _ P B I NE SS CV U HP CA MN) as (mm' & RUN' & V).
  assert (m1 = mm').
  { unfold unpack_decl, frame_id in RUN'. unfold unpack, unpack_name in RUN. rewrite (rm_name _ _ (sc_read _ _ S)), (rm_id _ _ (sc_read _ _ S)) in RUN. congruence. }
  subst m1. exists mm'. split; [exact RUN'|]. intros d w desc n C ID EX US T CO LK EC.
  apply (table_compares srt bs e es md d w desc bits mm' (decl_value d data)); auto; [|now apply V].
  intros d' ID'. destruct (decl_of_sig _ _ S d' ID') as (s & IS & RA). destruct (read_names d' s RA) as (NM & _).
  pose proof (hs_sigs _ _ _ _ _ (ur_struct _ _ _ _ _ _ _ _ UR) s IS) as H. rewrite NM, (read_object bits d' s RA) in H; [exact H|now apply (sc_decl _ _ S)|now apply (ft_len _ (pj_fits _ _ _ P md I))].
Qed.

Theorem declared_reports_phys : forall srt bs e md bits mx data hash mm raw, project srt bs e -> floats_on e = true -> In md (file_msgs bs) -> md_sigs md <> [] ->
  convertible (file_msgs bs) md -> pack_call e bits md mx data mm -> computing e bits md hash mm -> plain_sum e md -> phys_struct mm md -> phys_of mm md raw ->
  exists mm', pack_decl e md mm = Ok (mm', Some (VI U32 (frame_id md))) /\
    let ide := if N.testbit (md_id md) 31 then 1 else 0 in
    if struct_on e
    then int_at mm' "cframe->MsgId" = Some (frame_id md) /\ int_at mm' "cframe->DLC" = Some (Z.of_N (md_dlc md)) /\ int_at mm' "cframe->IDE" = Some ide
    else int_at mm' "*_len" = Some (Z.of_N (md_dlc md)) /\ int_at mm' "*_ide" = Some ide.
Proof.
  intros srt bs e md bits mx data hash mm raw P B I NE CV U CG PS HP PO. destruct (project_msg _ _ _ _ P I NE) as (m & J & S & N). pose proof (sc_read _ _ S) as R.
  assert (SN : sends e m bits 0 mx data (tf_decl mm) hash mm).
  { apply (sends_phys _ _ _ _ _ P B I J S N CV _ _ _ _ _ U CG PS HP). intros d ID US. destruct (PO d ID US) as (A1 & A2 & v & A3 & A4). exists (raw d), v. auto. }
  destruct (identity _ _ _ _ _ _ _ _ _ SN) as (m1 & RUN & X).
  exists m1. split; [unfold pack_decl, frame_id; unfold pack, pack_name in RUN; rewrite (rm_name _ _ R), (rm_id _ _ R) in RUN; exact RUN|].
  cbv zeta. rewrite (rm_id _ _ R), (rm_dlc _ _ R), (rm_ext _ _ R) in X. exact X.
Qed.

Theorem table_sent_phys : forall srt1 srt2 bs e1 e2 es1 es2 md bits1 bits2 mx data hash mm1 mm2 dl data2 raw d w desc,
  project srt1 bs e1 -> read_entries srt1 (file_text bs) (e_db e1) es1 -> floats_on e1 = true ->
  project srt2 bs e2 -> read_entries srt2 (file_text bs) (e_db e2) es2 -> floats_on e2 = true ->
  In md (file_msgs bs) -> disjoint_bits md -> short_signed md -> convertible (file_msgs bs) md ->
  pack_call e1 bits1 md mx data mm1 -> computing e1 bits1 md hash mm1 -> plain_sum e1 md -> phys_struct mm1 md -> phys_of mm1 md raw ->
  unpack_call bits2 md data2 dl mm2 -> phys_struct mm2 md -> counter_at e2 bits2 md mm2 -> DeclSpec.monitored e2 md mm2 ->
  In d (md_sigs md) -> unscaled d -> decl_exact d -> ~ counter_decl e1 md d -> ~ checksum_decl e1 md d ->
  table_entry es1 md d w desc -> comparable d w -> decl_carries d w -> lookup (entry_macro_name md d desc) (e_conf e1) = None ->
  forall n C1, c_macros C1 = after_header (e_conf e1) (e_h e1) ->
  exists mm mm1' data' mm2', exec_expr (S n) C1 mm1 (selection md d desc) = Ok mm /\
    pack_decl e1 md mm = Ok (mm1', Some (VI U32 (frame_id md))) /\ frame e1 mm1' data' /\
    (firstn (N.to_nat (md_dlc md)) data2 = firstn (N.to_nat (md_dlc md)) data' ->
       unpack_decl e2 md mm2 = Ok (mm2', Some (VI U32 (frame_id md))) /\
       forall w' desc' k C2, table_entry es2 md d w' desc' -> comparable d w' -> lookup (entry_macro_name md d desc') (e_conf e2) = None ->
         c_macros C2 = after_header (e_conf e2) (e_h e2) -> eval (S k) C2 mm2' [] (comparison md d desc') = Ok (vbool (w =? w'))).
Proof.
  intros srt1 srt2 bs e1 e2 es1 es2 md bits1 bits2 mx data hash mm1 mm2 dl data2 raw d w desc P1 R1 F1 P2 R2 F2 I DB SS CV PC CG PS HP PO UC HP2 CA MN ID US EX NC NS T CO CW LK n C1 EM.
  assert (NE : md_sigs md <> []) by (intros X; rewrite X in ID; contradiction).
  destruct (table_selects _ _ _ _ _ _ _ _ _ _ P1 R1 I ID US T CO CW LK (pc_struct _ _ _ _ _ _ PC) n C1 EM) as (v & EXE & TV & (t & EV)).
  destruct (pc_struct _ _ _ _ _ _ PC d ID) as (v0 & S0 & _). set (q := member (field_name d)) in *. set (mm := set_scal mm1 q (field_object bits1 d, v)) in *.
  assert (PC' : pack_call e1 bits1 md mx data mm).
  { destruct PC as [A1 A2 A3 A4 A5]. constructor; [exact A1| | |exact A4|exact A5].
    - destruct (struct_on e1); [destruct A2 as (X & Y & Z); split; [|split]|destruct A2 as (X & Y); split]; apply (sel_some mm1 q _ v0 v S0); assumption.
    - intros x IX. eapply sel_type; eauto. }
  assert (CG' : computing e1 bits1 md hash mm).
  { destruct CG as [A1 A2 A3 A4]. constructor.
    - intros x IX CX. eapply sel_type; eauto.
    - intros x z IX CX DX. apply (A2 x z IX CX). unfold decl_is, int_at in *. unfold mm in DX. rewrite (sel_at mm1 q) in DX.
      destruct (String.eqb_spec (member (field_name x)) q) as [E|]; [|exact DX]. exfalso. apply NC. unfold counter_decl in *.
      assert (E' : field_name x = field_name d) by (unfold q, member in E; now injection E). now rewrite <- E'.
    - exact A3.
    - intros m B X. destruct (A4 m B X) as (Y1 & Y2 & Y3). split; [exact Y1|]. split; [|exact Y3]. eapply sel_none; eauto. }
  assert (HP' : phys_struct mm md) by (intros x IX UX; eapply sel_type; eauto).
  assert (PO' : phys_of mm md raw).
  { intros x IX UX. destruct (PO x IX UX) as (A1 & A2 & y & A3 & A4). split; [exact A1|]. split; [exact A2|]. exists y. split; [|exact A4].
    unfold phys_is in *. unfold mm. rewrite (sel_at mm1 q). destruct (String.eqb_spec (member (phys_name x)) q) as [E|]; [|exact A3]. exfalso.
    assert (E' : phys_name x = field_name d) by (unfold q, member in E; now injection E).
    assert (x = d).
    { eapply (flat_once _ members_of (md_sigs md) x d (field_name d)); [apply (ft_members _ (pj_fits _ _ _ P1 md I))|exact IX|exact ID| |]; unfold members_of.
      - rewrite UX, <- E'. right. now left.
      - unfold field_name. rewrite (proj2 (unscaledb_ok d) US). now left. }
    subst x. apply unscaledb_ok in US. congruence. }
  destruct (phys_sent_and_received _ _ _ _ _ _ _ _ _ _ _ _ _ _ _ _ P1 F1 P2 F2 I NE DB SS CV PC' CG' PS HP' PO' UC HP2 CA MN) as (mm1' & data' & mm2' & PK & FR & RT).
  exists mm, mm1', data', mm2'. split; [exact EXE|]. split; [exact PK|]. split; [exact FR|]. intros EQ. destruct (RT EQ) as (UP & VA). split; [exact UP|].
  intros w' desc' k C2 T' CO' LK' EM'.
  assert (DI : decl_is mm d w) by (unfold decl_is, int_at, mm; rewrite (sel_at mm1 q); fold q; rewrite String.eqb_refl, EV; reflexivity).
  pose proof (proj1 (VA d ID EX) (proj2 (unscaledb_ok d) US) NC NS w DI CW) as D2.
  destruct (table_decodes_phys _ _ _ _ _ _ _ _ _ P2 R2 F2 I NE SS CV UC HP2 CA MN) as (m3 & UP' & H). rewrite UP in UP'. assert (m3 = mm2') by congruence. subst m3.
  pose proof (H d w' desc' k C2 ID EX US T' CO' LK' EM') as G. destruct (unpack_phys _ _ _ _ _ _ _ _ P2 F2 I NE SS CV UC HP2 CA MN) as (m4 & UP4 & H4). rewrite UP in UP4. assert (m4 = mm2') by congruence. subst m4.
  pose proof (proj1 (H4 d ID EX)) as D3. unfold decl_is in D2, D3. rewrite D2 in D3. injection D3 as D3. now rewrite D3.
Qed.
