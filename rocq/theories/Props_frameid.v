(** Property C13 from the message line of a DBC file to the values that Pack and Unpack report. *)

From Coq Require Import ZArith NArith List String Ascii Bool Lia Permutation.
From Verif Require Import Base Dbl CSyntax CSem CRun Types Formatter Settings MainGen Scanner App CodecSpec MsgSpec DriverSpec HeaderSpec
  ScanSpec SigSpec CodecEnv Concrete Samples DeclSpec DeclThms Props_sigline Props_codec Props_decl.
Import ListNotations.
Open Scope string_scope.
Open Scope Z_scope.

(** bit 31 of the number in the message line marks extended frames *)
Definition frame_ide (md : msgdecl) : Z := if N.testbit (md_id md) 31 then 1 else 0.

Lemma line_of : forall srt bs d msg, sorts srt -> (forall b, In b bs -> block_ok b) -> scan srt (file_text bs) = Ok d -> In msg (d_msgs d) ->
  exists md, In md (file_msgs bs) /\ read_message md msg.
Proof.
  intros srt bs d msg S B SC I. pose proof (C51_file_partial _ _ _ S B SC) as F. revert I. clear - F.
  induction F as [|md m mds ms R F IH]; intros I; [contradiction|]. destruct I as [<-|I]; [exists md; split; [now left|exact R]|].
  destruct (IH I) as (x & J & K). exists x. split; [now right|exact K].
Qed.

(** ** C13.  [C13_identity] in Props_codec.v speaks about the scanned message; here about its line in the file, for every driver whose data base was
    scanned from the file *)
Theorem C13_pack_line : forall srt bs e msg bits ini mx d tf hash m, sorts srt -> (forall b, In b bs -> block_ok b) -> scan srt (file_text bs) = Ok (e_db e) ->
  sends e msg bits ini mx d tf hash m ->
  exists md, In md (file_msgs bs) /\ g_name msg = md_name md /\
  exists m', pack e msg m = Ok (m', Some (VI U32 (frame_id md))) /\
    if struct_on e
    then int_at m' "cframe->MsgId" = Some (frame_id md) /\ int_at m' "cframe->DLC" = Some (Z.of_N (md_dlc md)) /\ int_at m' "cframe->IDE" = Some (frame_ide md)
    else int_at m' "*_len" = Some (Z.of_N (md_dlc md)) /\ int_at m' "*_ide" = Some (frame_ide md).
Proof.
  intros srt bs e msg bits ini mx d tf hash m S B SC SN. destruct (line_of _ _ _ _ S B SC (proj1 (sn_msg _ _ _ _ _ _ _ _ _ SN))) as (md & I & [N ID EX DL _]).
  exists md. split; [exact I|]. split; [exact N|]. destruct (C13_identity _ _ _ _ _ _ _ _ _ SN) as (m' & P & R). exists m'.
  unfold frame_id, frame_ide. rewrite <- ID, <- EX, <- DL. split; assumption.
Qed.
Print Assumptions C13_pack_line.

Theorem C13_unpack_line : forall srt bs e msg bits d dl tick hash hook pf m, sorts srt -> (forall b, In b bs -> block_ok b) -> scan srt (file_text bs) = Ok (e_db e) ->
  receives e msg bits d dl tick hash hook pf m -> signed_fit msg ->
  exists md, In md (file_msgs bs) /\ g_name msg = md_name md /\ exists m', unpack e msg m = Ok (m', Some (VI U32 (frame_id md))).
Proof.
  intros srt bs e msg bits d dl tick hash hook pf m S B SC RC SF. destruct (line_of _ _ _ _ S B SC (proj1 (rc_msg _ _ _ _ _ _ _ _ _ _ RC))) as (md & I & [N ID EX DL _]).
  exists md. split; [exact I|]. split; [exact N|]. destruct (C01_unpack_unsigned_partial _ _ _ _ _ _ _ _ _ _ RC SF) as (m' & P & _). exists m'.
  unfold frame_id. rewrite <- ID. exact P.
Qed.
Print Assumptions C13_unpack_line.

(** with one message line of each name, the values are those of the line with the message's name *)
Theorem C13_declared_line : forall srt bs e md bits mx data hash mm, project srt bs e -> floats_on e = false ->
  In md (file_msgs bs) -> md_sigs md <> [] -> pack_call e bits md mx data mm -> computing e bits md hash mm ->
  exists mm', pack_decl e md mm = Ok (mm', Some (VI U32 (frame_id md))) /\
    if struct_on e
    then int_at mm' "cframe->MsgId" = Some (frame_id md) /\ int_at mm' "cframe->DLC" = Some (Z.of_N (md_dlc md)) /\ int_at mm' "cframe->IDE" = Some (frame_ide md)
    else int_at mm' "*_len" = Some (Z.of_N (md_dlc md)) /\ int_at mm' "*_ide" = Some (frame_ide md).
Proof.
  intros srt bs e md bits mx data hash mm P B I NE U CG. destruct (project_msg _ _ _ _ P I NE) as (m & J & S & N).
  pose proof (sends_decl _ _ _ _ _ _ _ _ _ _ P B I S J N U CG) as R. destruct (C13_identity _ _ _ _ _ _ _ _ _ R) as (m' & Q & T). exists m'.
  destruct (sc_read _ _ S) as [NM ID EX DL _]. unfold pack, pack_name in Q. unfold pack_decl, frame_id, frame_ide. rewrite <- ID, <- EX, <- DL, <- NM. split; assumption.
Qed.
Print Assumptions C13_declared_line.

(** BO_ 2147483939 Engine: 8: the identifier is 0x123, extended *)
Example C13_line_case : frame_id engine_decl = 0x123 /\ frame_ide engine_decl = 1 /\ frame_ide last_decl = 0 /\
  exists mm', pack_decl two engine_decl two_tx = Ok (mm', Some (VI U32 0x123)) /\ int_at mm' "*_len" = Some 8 /\ int_at mm' "*_ide" = Some 1.
Proof.
  split; [reflexivity|]. split; [reflexivity|]. split; [reflexivity|]. destruct C53_project as [P (F & M & U)].
  destruct (C13_declared_line _ _ _ engine_decl true 8 _ (fun _ => 0) _ P F ltac:(vm_compute; auto) ltac:(discriminate) (proj1 C53_pack_case)
    (proj2 (proj2 (C53_basic _ _ _ _ _ M U)))) as (mm' & A & B). exists mm'.
  split; [exact A|]. assert (SO : struct_on two = false) by (vm_compute; reflexivity). rewrite SO in B. exact B.
Qed.
(** both theorems on scanned messages apply to it *)
Example C13_line_sends : exists msg, sends two msg true 0 8 (repeat 170 8) (fun _ => 0) (fun _ => 0) two_tx /\
  sorts isort /\ (forall b, In b two_blocks -> block_ok b) /\ scan isort (file_text two_blocks) = Ok (e_db two).
Proof.
  destruct C53_project as [P (F & M & U)]. assert (I : In engine_decl (file_msgs two_blocks)) by (vm_compute; auto).
  destruct (project_msg _ _ _ engine_decl P I ltac:(discriminate)) as (m & J & S & N). exists m.
  split; [|split; [apply (pj_sort _ _ _ P)|split; [apply (pj_blocks _ _ _ P)|apply (pj_scan _ _ _ P)]]].
  apply (sends_decl _ _ _ _ _ _ _ _ _ _ P F I S J N (proj1 C53_pack_case) (proj2 (proj2 (C53_basic _ _ _ _ _ M U)))).
Qed.
Example C13_line_receives : exists msg tick hash hook pf, receives two msg true two_bytes 8 tick hash hook pf two_rx /\ signed_fit msg.
Proof.
  destruct C53_project as [P (F & M & U)]. assert (I : In engine_decl (file_msgs two_blocks)) by (vm_compute; auto).
  destruct (project_msg _ _ _ engine_decl P I ltac:(discriminate)) as (m & J & S & N). exists m.
  destruct (C53_basic two true engine_decl (fun _ => 0) two_rx M U) as (CA & MN & _).
  destruct (receives_decl _ _ _ _ _ _ _ _ _ P F I S J N (proj1 C53_unpack_case) CA MN) as (tick & hash & hook & R).
  exists tick, hash, hook, (fun _ _ => VI I32 0). split; [exact R|]. apply (short_fit _ _ S (proj1 (proj2 C53_unpack_case))).
Qed.
