(** Value tables and Receive: comparisons in the struct of messages that Receive fills. *)

From Coq Require Import ZArith NArith List String Ascii Bool Lia ZifyBool Permutation.
From Verif Require Import Base Dbl CSyntax CSem CRun Types Formatter Settings MainGen UtilGen LineParser Scanner App CodecSpec MsgSpec DriverSpec HeaderSpec HeaderRun CSemLemmas
  ScanSpec ScanThms SigSpec NamesSpec CodecEnv UtilSpec DeclSpec DeclThms PhysSpec PhysDecl RecvSpec RecvDecl CmpSpec CmpProof CmpPhys.
Import ListNotations.
Open Scope string_scope.
Open Scope Z_scope.

Lemma slot_compared : forall srt bs e es md d w desc mm m1, project srt bs e -> read_entries srt (file_text bs) (e_db e) es ->
  In md (file_msgs bs) -> In d (md_sigs md) -> unscaled d -> table_entry es md d w desc -> lookup (entry_macro_name md d desc) (e_conf e) = None ->
  (forall f, m_scal mm (sub_path (md_name md) f) = m_scal m1 (member f)) ->
  forall n C, c_macros C = after_header (e_conf e) (e_h e) -> eval (S n) C mm [] (slot_comparison md d desc) = eval (S n) C m1 [] (comparison md d desc).
Proof.
  intros srt bs e es md d w desc mm m1 P R I ID US T LK A n C EM. unfold slot_comparison, comparison. rewrite !eval_bin by reflexivity.
  rewrite (table_macro _ _ _ _ _ _ _ _ P R I ID US T LK n C mm EM), (table_macro _ _ _ _ _ _ _ _ P R I ID US T LK n C m1 EM).
  assert (E : eval (S n) C mm [] (EFld false (EFld true (EId "_m") (md_name md)) (sd_name d)) = eval (S n) C m1 [] (EFld true (EId "_m") (sd_name d))).
  { cbn [eval path]. pose proof (A (sd_name d)) as X. unfold sub_path, member in X.
    replace (("_m" ++ "->" ++ md_name md) ++ "." ++ sd_name d)%string with ("_m->" ++ md_name md ++ "." ++ sd_name d)%string by (cbn [append]; now rewrite ?LexLemmas.app_assoc).
    change ("_m" ++ "->" ++ sd_name d)%string with ("_m->" ++ sd_name d)%string. now rewrite X. }
  now rewrite E.
Qed.

Theorem table_received : forall srt bs e es who h c md bits data dl mm, project srt bs e -> read_entries srt (file_text bs) (e_db e) es -> floats_on e = false ->
  companion e who h c -> NoDup (map frame_id (file_msgs bs)) -> receive_free e ->
  In md (file_msgs bs) -> declared_for who md -> short_signed md -> id_is mm (frame_id md) ->
  unpack_call bits md data dl (inside (md_name md) mm) -> counter_at e bits md (inside (md_name md) mm) -> DeclSpec.monitored e md (inside (md_name md) mm) ->
  exists mm', receive e who c mm = Ok (mm', Some (VI U32 (frame_id md))) /\ rest_kept md mm mm' /\
    forall d w desc n C, In d (md_sigs md) -> decl_exact d -> unscaled d -> table_entry es md d w desc -> comparable d w ->
      lookup (entry_macro_name md d desc) (e_conf e) = None -> c_macros C = after_header (e_conf e) (e_h e) ->
      eval (S n) C mm' [] (slot_comparison md d desc) = Ok (vbool (decl_value d data =? w)).
Proof.
  intros srt bs e es who h c md bits data dl mm P RE FL CP N F I D SS Ei U CA MN.
  destruct (table_decodes _ _ _ _ _ _ _ _ _ P RE FL I (proj1 D) SS U CA MN) as (m1 & RUN & H).
  destruct (receive_unpacks _ _ _ P who h c md mm m1 CP N F I D Ei RUN) as (mm' & R & A & K). exists mm'. split; [exact R|]. split; [exact K|].
  intros d w desc n C ID EX US T CO LK EM. rewrite (slot_compared _ _ _ _ _ _ _ _ mm' m1 P RE I ID US T LK A n C EM). now apply H.
Qed.

Theorem table_received_phys : forall srt bs e es who h c md bits data dl mm, project srt bs e -> read_entries srt (file_text bs) (e_db e) es -> floats_on e = true ->
  companion e who h c -> NoDup (map frame_id (file_msgs bs)) -> receive_free e ->
  In md (file_msgs bs) -> declared_for who md -> short_signed md -> convertible (file_msgs bs) md -> id_is mm (frame_id md) ->
  unpack_call bits md data dl (inside (md_name md) mm) -> phys_struct (inside (md_name md) mm) md ->
  counter_at e bits md (inside (md_name md) mm) -> DeclSpec.monitored e md (inside (md_name md) mm) ->
  exists mm', receive e who c mm = Ok (mm', Some (VI U32 (frame_id md))) /\ rest_kept md mm mm' /\
    forall d w desc n C, In d (md_sigs md) -> decl_exact d -> unscaled d -> table_entry es md d w desc -> comparable d w ->
      lookup (entry_macro_name md d desc) (e_conf e) = None -> c_macros C = after_header (e_conf e) (e_h e) ->
      eval (S n) C mm' [] (slot_comparison md d desc) = Ok (vbool (decl_value d data =? w)).
Proof.
  intros srt bs e es who h c md bits data dl mm P RE FL CP N F I D SS CV Ei U PS CA MN.
  destruct (table_decodes_phys _ _ _ _ _ _ _ _ _ P RE FL I (proj1 D) SS CV U PS CA MN) as (m1 & RUN & H).
  destruct (receive_unpacks _ _ _ P who h c md mm m1 CP N F I D Ei RUN) as (mm' & R & A & K). exists mm'. split; [exact R|]. split; [exact K|].
  intros d w desc n C ID EX US T CO LK EM. rewrite (slot_compared _ _ _ _ _ _ _ _ mm' m1 P RE I ID US T LK A n C EM). now apply H.
Qed.

(** from one node to another *)
Theorem table_over_network : forall srt1 srt2 bs e1 e2 es1 es2 who h c md bits1 bits2 mx data hash mm1 mm2 dl data2 d w desc,
  project srt1 bs e1 -> read_entries srt1 (file_text bs) (e_db e1) es1 -> floats_on e1 = false ->
  project srt2 bs e2 -> read_entries srt2 (file_text bs) (e_db e2) es2 -> floats_on e2 = false ->
  companion e2 who h c -> NoDup (map frame_id (file_msgs bs)) -> receive_free e2 ->
  In md (file_msgs bs) -> declared_for who md -> disjoint_bits md -> short_signed md ->
  pack_call e1 bits1 md mx data mm1 -> computing e1 bits1 md hash mm1 -> id_is mm2 (frame_id md) ->
  unpack_call bits2 md data2 dl (inside (md_name md) mm2) -> counter_at e2 bits2 md (inside (md_name md) mm2) -> DeclSpec.monitored e2 md (inside (md_name md) mm2) ->
  In d (md_sigs md) -> unscaled d -> decl_exact d -> ~ counter_decl e1 md d -> ~ checksum_decl e1 md d ->
  table_entry es1 md d w desc -> comparable d w -> decl_carries d w -> lookup (entry_macro_name md d desc) (e_conf e1) = None ->
  forall n C1, c_macros C1 = after_header (e_conf e1) (e_h e1) ->
  exists mm mm1' data', exec_expr (S n) C1 mm1 (selection md d desc) = Ok mm /\
    pack_decl e1 md mm = Ok (mm1', Some (VI U32 (frame_id md))) /\ frame e1 mm1' data' /\
    (firstn (N.to_nat (md_dlc md)) data2 = firstn (N.to_nat (md_dlc md)) data' ->
       exists mm2', receive e2 who c mm2 = Ok (mm2', Some (VI U32 (frame_id md))) /\ rest_kept md mm2 mm2' /\
       forall w' desc' k C2, table_entry es2 md d w' desc' -> comparable d w' -> lookup (entry_macro_name md d desc') (e_conf e2) = None ->
         c_macros C2 = after_header (e_conf e2) (e_h e2) -> eval (S k) C2 mm2' [] (slot_comparison md d desc') = Ok (vbool (w =? w'))).
Proof.
  intros srt1 srt2 bs e1 e2 es1 es2 who h c md bits1 bits2 mx data hash mm1 mm2 dl data2 d w desc P1 R1 F1 P2 R2 F2 CP N F I D DB SS PC CG Ei U CA MN ID US EX NC NS T CO CW LK n C1 EM.
  destruct (table_sent srt1 srt2 bs e1 e2 es1 es2 md bits1 bits2 mx data hash mm1 (inside (md_name md) mm2) dl data2 d w desc
    P1 R1 F1 P2 R2 F2 I DB SS PC CG U CA MN ID US EX NC NS T CO CW LK n C1 EM) as (mm & mm1' & data' & m1 & E & PK & FR & H).
  exists mm, mm1', data'. split; [exact E|]. split; [exact PK|]. split; [exact FR|]. intros EQ. destruct (H EQ) as (UP & G).
  destruct (receive_unpacks _ _ _ P2 who h c md mm2 m1 CP N F I D Ei UP) as (mm2' & R & A & K). exists mm2'. split; [exact R|]. split; [exact K|].
  intros w' desc' k C2 T' CO' LK' EM'. rewrite (slot_compared _ _ _ _ _ _ _ _ mm2' m1 P2 R2 I ID US T' LK' A k C2 EM'). now apply (G w').
Qed.

Theorem table_over_network_phys : forall srt1 srt2 bs e1 e2 es1 es2 who h c md bits1 bits2 mx data hash mm1 mm2 dl data2 raw d w desc,
  project srt1 bs e1 -> read_entries srt1 (file_text bs) (e_db e1) es1 -> floats_on e1 = true ->
  project srt2 bs e2 -> read_entries srt2 (file_text bs) (e_db e2) es2 -> floats_on e2 = true ->
  companion e2 who h c -> NoDup (map frame_id (file_msgs bs)) -> receive_free e2 ->
  In md (file_msgs bs) -> declared_for who md -> disjoint_bits md -> short_signed md -> convertible (file_msgs bs) md ->
  pack_call e1 bits1 md mx data mm1 -> computing e1 bits1 md hash mm1 -> plain_sum e1 md -> phys_struct mm1 md -> phys_of mm1 md raw -> id_is mm2 (frame_id md) ->
  unpack_call bits2 md data2 dl (inside (md_name md) mm2) -> phys_struct (inside (md_name md) mm2) md -> counter_at e2 bits2 md (inside (md_name md) mm2) -> DeclSpec.monitored e2 md (inside (md_name md) mm2) ->
  In d (md_sigs md) -> unscaled d -> decl_exact d -> ~ counter_decl e1 md d -> ~ checksum_decl e1 md d ->
  table_entry es1 md d w desc -> comparable d w -> decl_carries d w -> lookup (entry_macro_name md d desc) (e_conf e1) = None ->
  forall n C1, c_macros C1 = after_header (e_conf e1) (e_h e1) ->
  exists mm mm1' data', exec_expr (S n) C1 mm1 (selection md d desc) = Ok mm /\
    pack_decl e1 md mm = Ok (mm1', Some (VI U32 (frame_id md))) /\ frame e1 mm1' data' /\
    (firstn (N.to_nat (md_dlc md)) data2 = firstn (N.to_nat (md_dlc md)) data' ->
       exists mm2', receive e2 who c mm2 = Ok (mm2', Some (VI U32 (frame_id md))) /\ rest_kept md mm2 mm2' /\
       forall w' desc' k C2, table_entry es2 md d w' desc' -> comparable d w' -> lookup (entry_macro_name md d desc') (e_conf e2) = None ->
         c_macros C2 = after_header (e_conf e2) (e_h e2) -> eval (S k) C2 mm2' [] (slot_comparison md d desc') = Ok (vbool (w =? w'))).
Proof.
  intros srt1 srt2 bs e1 e2 es1 es2 who h c md bits1 bits2 mx data hash mm1 mm2 dl data2 raw d w desc P1 R1 F1 P2 R2 F2 CP N F I D DB SS CV PC CG PS HP PO Ei U HP2 CA MN ID US EX NC NS T CO CW LK n C1 EM.
  destruct (table_sent_phys srt1 srt2 bs e1 e2 es1 es2 md bits1 bits2 mx data hash mm1 (inside (md_name md) mm2) dl data2 raw d w desc
    P1 R1 F1 P2 R2 F2 I DB SS CV PC CG PS HP PO U HP2 CA MN ID US EX NC NS T CO CW LK n C1 EM) as (mm & mm1' & data' & m1 & E & PK & FR & H).
  exists mm, mm1', data'. split; [exact E|]. split; [exact PK|]. split; [exact FR|]. intros EQ. destruct (H EQ) as (UP & G).
  destruct (receive_unpacks _ _ _ P2 who h c md mm2 m1 CP N F I D Ei UP) as (mm2' & R & A & K). exists mm2'. split; [exact R|]. split; [exact K|].
  intros w' desc' k C2 T' CO' LK' EM'. rewrite (slot_compared _ _ _ _ _ _ _ _ mm2' m1 P2 R2 I ID US T' LK' A k C2 EM'). now apply (G w').
Qed.
