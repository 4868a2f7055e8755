(** Properties C61 and C62 in drivers with signal conversion: value tables and reports of Pack when the macro for physical values is defined. *)

From Coq Require Import ZArith NArith List String Ascii Bool Lia ZifyBool Permutation.
From Verif Require Import Base Dbl CSyntax CSem CRun Types Formatter Settings MainGen LineParser Scanner App CodecSpec MsgSpec DriverSpec HeaderSpec HeaderRun
  ScanSpec ScanThms SigSpec NamesSpec CodecEnv Concrete Samples MonSamples DeclSpec PhysSpec PhysDecl CmpSpec CmpProof CmpPhys
  Props_sigline Props_decl Props_scan Props_names Props_phys Props_cmp.
Import ListNotations.
Open Scope string_scope.
Open Scope Z_scope.

(** ** C61 and C62 with conversions.  Props_cmp.v and Props_ident.v have the claims; the theorems there that call Unpack or Pack need
    the conversion of scaled signals switched off.  Here it is switched on: the message may have scaled signals beside the compared
    one, whose scalings are [convertible] as in C56. *)

(** Unpack fills the structure; the comparison with a macro is then true exactly when the frame has that value *)
Theorem C61_decoded_phys_partial : forall srt bs e es md bits data dl mm, project srt bs e -> read_entries srt (file_text bs) (e_db e) es -> floats_on e = true ->
  In md (file_msgs bs) -> md_sigs md <> [] -> short_signed md -> convertible (file_msgs bs) md ->
  unpack_call bits md data dl mm -> phys_struct mm md -> counter_at e bits md mm -> DeclSpec.monitored e md mm ->
  exists mm', unpack_decl e md mm = Ok (mm', Some (VI U32 (frame_id md))) /\
    forall d w desc n C, In d (md_sigs md) -> decl_exact d -> unscaled d -> table_entry es md d w desc -> comparable d w ->
      lookup (entry_macro_name md d desc) (e_conf e) = None -> c_macros C = after_header (e_conf e) (e_h e) ->
      eval (S n) C mm' [] (comparison md d desc) = Ok (vbool (decl_value d data =? w)).
Proof. exact table_decodes_phys. Qed.
Print Assumptions C61_decoded_phys_partial.

(** an entry that one program selects by its macro and sends is recognized by another program, by its macro and no other one *)
Theorem C61_sent_phys_partial : forall srt1 srt2 bs e1 e2 es1 es2 md bits1 bits2 mx data hash mm1 mm2 dl data2 raw d w desc,
  project srt1 bs e1 -> read_entries srt1 (file_text bs) (e_db e1) es1 -> floats_on e1 = true ->
  project srt2 bs e2 -> read_entries srt2 (file_text bs) (e_db e2) es2 -> floats_on e2 = true ->
  In md (file_msgs bs) -> disjoint_bits md -> short_signed md -> convertible (file_msgs bs) md ->
  pack_call e1 bits1 md mx data mm1 -> computing e1 bits1 md hash mm1 -> plain_sum e1 md -> phys_struct mm1 md -> phys_of mm1 md raw ->
  unpack_call bits2 md data2 dl mm2 -> phys_struct mm2 md -> counter_at e2 bits2 md mm2 -> DeclSpec.monitored e2 md mm2 ->
  In d (md_sigs md) -> unscaled d -> decl_exact d -> ~ counter_decl e1 md d -> ~ checksum_decl e1 md d ->
  table_entry es1 md d w desc -> comparable d w -> decl_carries d w -> lookup (entry_macro_name md d desc) (e_conf e1) = None ->
  forall n C1, c_macros C1 = after_header (e_conf e1) (e_h e1) ->
  exists mm mm1' data' mm2', exec_expr (S n) C1 mm1 (selection md d desc) = Ok mm /\
    pack_decl e1 md mm = Ok (mm1', Some (VI U32 (frame_id md))) /\ frame e1 mm1' data' /\
    (firstn (N.to_nat (md_dlc md)) data2 = firstn (N.to_nat (md_dlc md)) data' ->
       unpack_decl e2 md mm2 = Ok (mm2', Some (VI U32 (frame_id md))) /\
       forall w' desc' k C2, table_entry es2 md d w' desc' -> comparable d w' -> lookup (entry_macro_name md d desc') (e_conf e2) = None ->
         c_macros C2 = after_header (e_conf e2) (e_h e2) -> eval (S k) C2 mm2' [] (comparison md d desc') = Ok (vbool (w =? w'))).
Proof. exact table_sent_phys. Qed.
Print Assumptions C61_sent_phys_partial.

(** the identifier, the length and the frame format that Pack reports *)
Theorem C62_reports_phys_partial : forall srt bs e md bits mx data hash mm raw, project srt bs e -> floats_on e = true -> In md (file_msgs bs) -> md_sigs md <> [] ->
  convertible (file_msgs bs) md -> pack_call e bits md mx data mm -> computing e bits md hash mm -> plain_sum e md -> phys_struct mm md -> phys_of mm md raw ->
  exists mm', pack_decl e md mm = Ok (mm', Some (VI U32 (frame_id md))) /\
    let ide := if N.testbit (md_id md) 31 then 1 else 0 in
    if struct_on e
    then int_at mm' "cframe->MsgId" = Some (frame_id md) /\ int_at mm' "cframe->DLC" = Some (Z.of_N (md_dlc md)) /\ int_at mm' "cframe->IDE" = Some ide
    else int_at mm' "*_len" = Some (Z.of_N (md_dlc md)) /\ int_at mm' "*_ide" = Some ide.
Proof. exact declared_reports_phys. Qed.
Print Assumptions C62_reports_phys_partial.

(** ** A file: scaled temperature and distance beside a level with a value table *)

Definition level : sigdecl := plain_sig "Level" 24 6.
Definition cab_tail : list entry := [EComment 100 (Some "Temp") "of the air" []; EComment 6 (Some "B") "<RollingCounter>" []; EVals 100 "Level" [(0, "Empty"); (63, "Full")]].
Definition cab_list : list entry := (map EOther (flat_map block_lines (firstn 5 cab_blocks)) ++ cab_tail)%list.
Definition cab_unit : ctx := {| c_types := fun _ => None; c_macros := after_header (e_conf cab) cab_h; c_funs := fun _ => None; c_calls := fun _ => None |}.
Lemma cab_read : read_entries isort (file_text cab_blocks) (e_db cab) cab_list.
Proof.
  constructor.
  - apply isort_sorts.
  - vm_compute. reflexivity.
  - vm_compute. reflexivity.
  - intros e H. apply entry_okb_ok. revert e H. apply forallb_forall. vm_compute. reflexivity.
  - vm_compute. repeat (constructor; [cbn; intuition congruence|]). constructor.
  - intros e n H. assert (X : forallb (fun e => match entry_id e with Some n => existsb (Z.eqb (Z.of_N n)) (map g_id (d_msgs cab_db)) | None => true end) cab_list = true) by (vm_compute; reflexivity).
    rewrite forallb_forall in X. specialize (X e H). intros E. rewrite E in X. apply existsb_exists in X as (z & Z1 & Z2). apply Z.eqb_eq in Z2. subst z. exact Z1.
Qed.
Lemma level_entry : forall w desc, In (w, desc) [(0, "Empty"); (63, "Full")] -> table_entry cab_list cabin level w desc.
Proof.
  intros w desc I. exists (map EOther (flat_map block_lines (firstn 5 cab_blocks)) ++ firstn 2 cab_tail)%list, [(0, "Empty"); (63, "Full")], []. split; [reflexivity|]. split; [exact I|].
  intros k u [].
Qed.

(** the frame of C56_unpack_case with a full tank; C56_convertible, C56_basic_case and C56_disjoint_case have the other hypotheses *)
Definition full_rx : mem := cab_mem (cab_struct 0 0 0 0 zero_dbl) [50; 144; 1; 63]%Z.
Example C61_decoded_phys_case : project isort cab_blocks cab /\ read_entries isort (file_text cab_blocks) (e_db cab) cab_list /\ floats_on cab = true /\
  In cabin (file_msgs cab_blocks) /\ In level (md_sigs cabin) /\ short_signed cabin /\ convertible (file_msgs cab_blocks) cabin /\
  unpack_call false cabin [50; 144; 1; 63] 4 full_rx /\ phys_struct full_rx cabin /\ counter_at cab false cabin full_rx /\ DeclSpec.monitored cab cabin full_rx /\
  decl_exact level /\ unscaled level /\ table_entry cab_list cabin level 63 "Full" /\ comparable level 63 /\ lookup (entry_macro_name cabin level "Full") (e_conf cab) = None /\
  c_macros cab_unit = after_header (e_conf cab) (e_h cab) /\
  exists mm', unpack_decl cab cabin full_rx = Ok (mm', Some (VI U32 100)) /\ phys_is mm' temp (VI I16 60) /\
    eval 1 cab_unit mm' [] (comparison cabin level "Full") = Ok (VI I32 1) /\ eval 1 cab_unit mm' [] (comparison cabin level "Empty") = Ok (VI I32 0).
Proof.
  split; [apply C56_project|]. split; [exact cab_read|]. split; [apply C56_project|]. split; [now left|]. split; [right; right; now left|]. split; [apply C56_unpack_case|]. split; [apply C56_convertible|].
  split.
  - constructor.
    + split; [split; [reflexivity|]|split].
      * intros q Q. cbn [full_rx cab_mem mk_mem m_arr]. destruct (String.eqb q "_d") eqn:E; [apply String.eqb_eq in E; contradiction|reflexivity].
      * intros x X. unfold is_byte. repeat destruct X as [<-|X]; try contradiction; lia.
      * vm_compute. discriminate.
    + split; [reflexivity|lia].
    + intros d D. repeat destruct D as [<-|D]; try contradiction; apply has_typeb_ok; vm_compute; reflexivity.
  - split; [intros d D U; repeat destruct D as [<-|D]; try contradiction; try discriminate U; apply has_typeb_ok; vm_compute; reflexivity|].
    split; [apply (C56_basic_case false (fun _ => 0))|]. split; [apply (C56_basic_case false (fun _ => 0))|]. split; [left; vm_compute; discriminate|]. split; [split; reflexivity|].
    split; [apply level_entry; right; now left|]. split; [left; lia|]. split; [vm_compute; reflexivity|]. split; [reflexivity|].
    eexists. split; [vm_compute; reflexivity|]. split; [vm_compute; reflexivity|]. split; vm_compute; reflexivity.
Qed.

(** the call of C56_pack_case, after the level was set to "Full" *)
Example C61_sent_phys_case : disjoint_bits cabin /\ pack_call cab false cabin 4 (repeat 170 4) cab_tx /\ computing cab false cabin (fun _ => 0) cab_tx /\ plain_sum cab cabin /\
  phys_struct cab_tx cabin /\ phys_of cab_tx cabin (fun d => if String.eqb (sd_name d) "Temp" then 50 else 5) /\
  ~ counter_decl cab cabin level /\ ~ checksum_decl cab cabin level /\ decl_carries level 63 /\
  exists mm mm', exec_expr 1 cab_unit cab_tx (selection cabin level "Full") = Ok mm /\ pack_decl cab cabin mm = Ok (mm', Some (VI U32 100)) /\
    frame cab mm' [50; 5; 0; 63] /\ int_at mm' "*_len" = Some 4 /\ int_at mm' "*_ide" = Some 0.
Proof.
  destruct C56_project as (_ & _ & _ & UC). split; [exact C56_disjoint_case|]. split; [apply C56_pack_case|]. split; [apply (C56_basic_case false (fun _ => 0))|]. split; [apply (C56_basic_case false (fun _ => 0) cab_tx)|].
  split; [apply C56_pack_case|]. split; [apply C56_pack_case|].
  split; [intros (m & s & (I & _) & C & _); destruct (UC m I); congruence|]. split; [intros (m & s & (I & _) & C & _); destruct (UC m I); congruence|].
  split; [vm_compute; split; [discriminate|reflexivity]|]. eexists. eexists. split; [vm_compute; reflexivity|]. split; [vm_compute; reflexivity|]. split; [vm_compute; auto|]. split; vm_compute; reflexivity.
Qed.
