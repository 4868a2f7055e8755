(** Property C61 with Receive: value tables in the struct of messages. *)

From Coq Require Import ZArith NArith List String Ascii Bool Lia ZifyBool Permutation.
From Verif Require Import Base Dbl CSyntax CSem CRun Types Formatter Settings MainGen UtilGen LineParser Scanner App CodecSpec MsgSpec DriverSpec HeaderSpec HeaderRun
  ScanSpec ScanThms SigSpec NamesSpec CodecEnv Concrete Samples UtilSpec UtilThms DeclSpec PhysSpec PhysDecl RecvSpec RecvDecl CmpSpec CmpProof CmpPhys RecvCmp
  Props_sigline Props_util Props_decl Props_scan Props_names Props_phys Props_recv Props_cmp Props_cmpphys.
Import ListNotations.
Open Scope string_scope.
Open Scope Z_scope.

(** ** C61 with Receive.  Props_cmp.v has the claim.  Receive finds the message of a frame and fills its member in the struct of all messages; there the
    comparison is  _m->Panel.Mode == Mode_Panel_On .  Conditions on the companion of the driver, the frame numbers and the receivers as in C59. *)

(** a received frame: the comparison is true exactly when the frame has the number of the entry *)
Theorem C61_received_partial : forall srt bs e es who h c md bits data dl mm, project srt bs e -> read_entries srt (file_text bs) (e_db e) es -> floats_on e = false ->
  companion e who h c -> NoDup (map frame_id (file_msgs bs)) -> receive_free e ->
  In md (file_msgs bs) -> declared_for who md -> short_signed md -> id_is mm (frame_id md) ->
  unpack_call bits md data dl (inside (md_name md) mm) -> counter_at e bits md (inside (md_name md) mm) -> DeclSpec.monitored e md (inside (md_name md) mm) ->
  exists mm', receive e who c mm = Ok (mm', Some (VI U32 (frame_id md))) /\ rest_kept md mm mm' /\
    forall d w desc n C, In d (md_sigs md) -> decl_exact d -> unscaled d -> table_entry es md d w desc -> comparable d w ->
      lookup (entry_macro_name md d desc) (e_conf e) = None -> c_macros C = after_header (e_conf e) (e_h e) ->
      eval (S n) C mm' [] (slot_comparison md d desc) = Ok (vbool (decl_value d data =? w)).
Proof. exact table_received. Qed.
Print Assumptions C61_received_partial.

(** with signal conversion *)
Theorem C61_received_phys_partial : forall srt bs e es who h c md bits data dl mm, project srt bs e -> read_entries srt (file_text bs) (e_db e) es -> floats_on e = true ->
  companion e who h c -> NoDup (map frame_id (file_msgs bs)) -> receive_free e ->
  In md (file_msgs bs) -> declared_for who md -> short_signed md -> convertible (file_msgs bs) md -> id_is mm (frame_id md) ->
  unpack_call bits md data dl (inside (md_name md) mm) -> phys_struct (inside (md_name md) mm) md ->
  counter_at e bits md (inside (md_name md) mm) -> DeclSpec.monitored e md (inside (md_name md) mm) ->
  exists mm', receive e who c mm = Ok (mm', Some (VI U32 (frame_id md))) /\ rest_kept md mm mm' /\
    forall d w desc n C, In d (md_sigs md) -> decl_exact d -> unscaled d -> table_entry es md d w desc -> comparable d w ->
      lookup (entry_macro_name md d desc) (e_conf e) = None -> c_macros C = after_header (e_conf e) (e_h e) ->
      eval (S n) C mm' [] (slot_comparison md d desc) = Ok (vbool (decl_value d data =? w)).
Proof. exact table_received_phys. Qed.
Print Assumptions C61_received_phys_partial.

(** from one node to another: an entry selected by its macro and sent is recognized by its macro after Receive *)
Theorem C61_network_partial : forall srt1 srt2 bs e1 e2 es1 es2 who h c md bits1 bits2 mx data hash mm1 mm2 dl data2 d w desc,
  project srt1 bs e1 -> read_entries srt1 (file_text bs) (e_db e1) es1 -> floats_on e1 = false ->
  project srt2 bs e2 -> read_entries srt2 (file_text bs) (e_db e2) es2 -> floats_on e2 = false ->
  companion e2 who h c -> NoDup (map frame_id (file_msgs bs)) -> receive_free e2 ->
  In md (file_msgs bs) -> declared_for who md -> disjoint_bits md -> short_signed md ->
  pack_call e1 bits1 md mx data mm1 -> computing e1 bits1 md hash mm1 -> id_is mm2 (frame_id md) ->
  unpack_call bits2 md data2 dl (inside (md_name md) mm2) -> counter_at e2 bits2 md (inside (md_name md) mm2) -> DeclSpec.monitored e2 md (inside (md_name md) mm2) ->
  In d (md_sigs md) -> unscaled d -> decl_exact d -> ~ counter_decl e1 md d -> ~ checksum_decl e1 md d ->
  table_entry es1 md d w desc -> comparable d w -> decl_carries d w -> lookup (entry_macro_name md d desc) (e_conf e1) = None ->
  forall n C1, c_macros C1 = after_header (e_conf e1) (e_h e1) ->
  exists mm mm1' data', exec_expr (S n) C1 mm1 (selection md d desc) = Ok mm /\
    pack_decl e1 md mm = Ok (mm1', Some (VI U32 (frame_id md))) /\ frame e1 mm1' data' /\
    (firstn (N.to_nat (md_dlc md)) data2 = firstn (N.to_nat (md_dlc md)) data' ->
       exists mm2', receive e2 who c mm2 = Ok (mm2', Some (VI U32 (frame_id md))) /\ rest_kept md mm2 mm2' /\
       forall w' desc' k C2, table_entry es2 md d w' desc' -> comparable d w' -> lookup (entry_macro_name md d desc') (e_conf e2) = None ->
         c_macros C2 = after_header (e_conf e2) (e_h e2) -> eval (S k) C2 mm2' [] (slot_comparison md d desc') = Ok (vbool (w =? w'))).
Proof. exact table_over_network. Qed.
Print Assumptions C61_network_partial.

(** with signal conversion *)
Theorem C61_network_phys_partial : forall srt1 srt2 bs e1 e2 es1 es2 who h c md bits1 bits2 mx data hash mm1 mm2 dl data2 raw d w desc,
  project srt1 bs e1 -> read_entries srt1 (file_text bs) (e_db e1) es1 -> floats_on e1 = true ->
  project srt2 bs e2 -> read_entries srt2 (file_text bs) (e_db e2) es2 -> floats_on e2 = true ->
  companion e2 who h c -> NoDup (map frame_id (file_msgs bs)) -> receive_free e2 ->
  In md (file_msgs bs) -> declared_for who md -> disjoint_bits md -> short_signed md -> convertible (file_msgs bs) md ->
  pack_call e1 bits1 md mx data mm1 -> computing e1 bits1 md hash mm1 -> plain_sum e1 md -> phys_struct mm1 md -> phys_of mm1 md raw -> id_is mm2 (frame_id md) ->
  unpack_call bits2 md data2 dl (inside (md_name md) mm2) -> phys_struct (inside (md_name md) mm2) md -> counter_at e2 bits2 md (inside (md_name md) mm2) -> DeclSpec.monitored e2 md (inside (md_name md) mm2) ->
  In d (md_sigs md) -> unscaled d -> decl_exact d -> ~ counter_decl e1 md d -> ~ checksum_decl e1 md d ->
  table_entry es1 md d w desc -> comparable d w -> decl_carries d w -> lookup (entry_macro_name md d desc) (e_conf e1) = None ->
  forall n C1, c_macros C1 = after_header (e_conf e1) (e_h e1) ->
  exists mm mm1' data', exec_expr (S n) C1 mm1 (selection md d desc) = Ok mm /\
    pack_decl e1 md mm = Ok (mm1', Some (VI U32 (frame_id md))) /\ frame e1 mm1' data' /\
    (firstn (N.to_nat (md_dlc md)) data2 = firstn (N.to_nat (md_dlc md)) data' ->
       exists mm2', receive e2 who c mm2 = Ok (mm2', Some (VI U32 (frame_id md))) /\ rest_kept md mm2 mm2' /\
       forall w' desc' k C2, table_entry es2 md d w' desc' -> comparable d w' -> lookup (entry_macro_name md d desc') (e_conf e2) = None ->
         c_macros C2 = after_header (e_conf e2) (e_h e2) -> eval (S k) C2 mm2' [] (slot_comparison md d desc') = Ok (vbool (w =? w'))).
Proof. exact table_over_network_phys. Qed.
Print Assumptions C61_network_phys_partial.

(** ** The file of C61, node GW *)

Definition panel_util : list (string * string) := Eval vm_compute in util_of "drv" table_db (Some "GW").
Definition panel_util_h : string := Eval vm_compute in snd (nth 0 panel_util ("", "")).
Definition panel_util_c : string := Eval vm_compute in snd (nth 1 panel_util ("", "")).
Definition panel_net : mem := mk_mem (("_id", (LInt U32, VI U32 7)) :: dlc_obj 8 :: slots true panel 0 ++ slots true long 3)%list "_d" panel_data.
Example C61_received_case : companion table (Some "GW") panel_util_h panel_util_c /\ NoDup (map frame_id (file_msgs table_blocks)) /\ receive_free table /\
  declared_for (Some "GW") panel /\ id_is panel_net (frame_id panel) /\ unpack_call true panel panel_data 8 (inside "Panel" panel_net) /\
  counter_at table true panel (inside "Panel" panel_net) /\ DeclSpec.monitored table panel (inside "Panel" panel_net) /\
  slot_comparison panel mode "Off" = EBin OEq (EFld false (EFld true (EId "_m") "Panel") "Mode") (EId "Mode_Panel_Off") /\
  exists mm', receive table (Some "GW") panel_util_c panel_net = Ok (mm', Some (VI U32 7)) /\
    eval 1 header_unit mm' [] (slot_comparison panel mode "Switched on") = Ok (VI I32 1) /\ eval 1 header_unit mm' [] (slot_comparison panel mode "Off") = Ok (VI I32 0) /\
    eval 1 header_unit mm' [] (slot_comparison panel code "Invalid") = Ok (VI I32 1) /\ slot_is mm' long count 3.
Proof.
  split; [apply companion_of; vm_compute; reflexivity|]. split; [vm_compute; repeat (constructor; [cbn; intuition discriminate|]); constructor|]. split; [split; vm_compute; reflexivity|].
  split; [split; [discriminate|]; exists mode; cbn; auto|]. split; [split; [reflexivity|vm_compute; split; [discriminate|reflexivity]]|]. split.
  - constructor.
    + split; [split; [reflexivity|]|split].
      * intros q Q. cbn [inside panel_net mk_mem m_arr]. destruct (String.eqb q "_d") eqn:E; [apply String.eqb_eq in E; contradiction|reflexivity].
      * intros x X. unfold is_byte. repeat destruct X as [<-|X]; try contradiction; lia.
      * vm_compute. discriminate.
    + split; [reflexivity|lia].
    + intros d D. repeat destruct D as [<-|D]; try contradiction; apply has_typeb_ok; vm_compute; reflexivity.
  - destruct (C53_basic table true panel (fun _ => 0) (inside "Panel" panel_net) (proj1 table_basic) (proj2 table_basic)) as (A1 & A2 & _). split; [exact A1|]. split; [exact A2|].
    split; [reflexivity|]. eexists. split; [vm_compute; reflexivity|]. split; [vm_compute; reflexivity|]. split; [vm_compute; reflexivity|]. split; vm_compute; reflexivity.
Qed.

(** conversion: the call of C59_phys_case with a full tank, sent by the call of C61_sent_phys_case *)
Definition full_net : mem := mk_mem (("_id", (LInt U32, VI U32 100)) :: dlc_obj 4 ::
  map (fun d => (sub_path "Cabin" (field_name d), (field_object false d, obj (field_object false d) 0))) (md_sigs cabin) ++
  [(sub_path "Cabin" (phys_name temp), (LInt I16, VI I16 0)); (sub_path "Cabin" (phys_name dist), (LDbl, VD zero_dbl))])%list "_d" [50; 5; 0; 63].
Example C61_received_phys_case : unpack_call false cabin [50; 5; 0; 63] 4 (inside "Cabin" full_net) /\ phys_struct (inside "Cabin" full_net) cabin /\
  id_is full_net (frame_id cabin) /\
  exists mm', receive cab None cab_util_c full_net = Ok (mm', Some (VI U32 100)) /\ slot_is mm' cabin temp 50 /\
    eval 1 cab_unit mm' [] (slot_comparison cabin level "Full") = Ok (VI I32 1) /\ eval 1 cab_unit mm' [] (slot_comparison cabin level "Empty") = Ok (VI I32 0).
Proof.
  split; [|split; [|split; [split; [reflexivity|vm_compute; split; [discriminate|reflexivity]]|]]].
  - constructor.
    + split; [split; [reflexivity|]|split].
      * intros q Q. cbn [inside full_net mk_mem m_arr]. destruct (String.eqb q "_d") eqn:E; [apply String.eqb_eq in E; contradiction|reflexivity].
      * intros x X. unfold is_byte. repeat destruct X as [<-|X]; try contradiction; lia.
      * vm_compute. discriminate.
    + split; [reflexivity|lia].
    + intros d D. repeat destruct D as [<-|D]; try contradiction; apply has_typeb_ok; vm_compute; reflexivity.
  - intros d D. repeat destruct D as [<-|D]; try contradiction; intros U; try discriminate U; apply has_typeb_ok; vm_compute; reflexivity.
  - eexists. split; [vm_compute; reflexivity|]. split; [vm_compute; reflexivity|]. split; vm_compute; reflexivity.
Qed.
