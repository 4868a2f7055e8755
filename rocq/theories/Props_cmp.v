(** Property C61: comparing a signal with an entry of its value table. *)

From Coq Require Import ZArith NArith List String Ascii Bool Lia ZifyBool Permutation.
From Verif Require Import Base Dbl CSyntax CSem CRun Types Formatter Settings MainGen Scanner App LexLemmas PPProof CodecSpec MsgSpec DriverSpec HeaderSpec HeaderRun
  ScanSpec ScanThms SigSpec NamesSpec CodecEnv Concrete Samples DeclSpec DeclThms CmpSpec CmpProof Props_sigline Props_scan Props_decl.
Import ListNotations.
Open Scope string_scope.

(** ** C61.  Full claim: in every unit that includes the header, the comparison of a signal's member with the macro of an entry of
    its value table, as in  _m->Mode == Mode_Panel_On , is 1 exactly when the signal has the number of the entry.

    Proved for unscaled signals and the numbers in [comparable].  False for the number 2147483648, whose macro is (-2147483648),
    and for numbers from 2^31 in signals of more than 32 bits; scaled signals have no macros (C31_value_table_refuted). *)
Theorem C61_compare_partial : forall srt bs e es md d w desc bits mm z, project srt bs e -> read_entries srt (file_text bs) (e_db e) es ->
  In md (file_msgs bs) -> In d (md_sigs md) -> unscaled d -> table_entry es md d w desc -> comparable d w ->
  lookup (entry_macro_name md d desc) (e_conf e) = None -> struct_at bits mm md -> decl_is mm d z ->
  forall n C, c_macros C = after_header (e_conf e) (e_h e) -> eval (S n) C mm [] (comparison md d desc) = Ok (vbool (z =? w)%Z).
Proof. exact table_compares. Qed.
Print Assumptions C61_compare_partial.

(** in the struct that Unpack has filled, the comparison tells whether the frame has the number of the entry *)
Theorem C61_decoded_partial : forall srt bs e es md bits data dl mm, project srt bs e -> read_entries srt (file_text bs) (e_db e) es -> floats_on e = false ->
  In md (file_msgs bs) -> md_sigs md <> [] -> short_signed md -> unpack_call bits md data dl mm -> counter_at e bits md mm -> monitored e md mm ->
  exists mm', unpack_decl e md mm = Ok (mm', Some (VI U32 (frame_id md))) /\
    forall d w desc n C, In d (md_sigs md) -> decl_exact d -> unscaled d -> table_entry es md d w desc -> comparable d w ->
      lookup (entry_macro_name md d desc) (e_conf e) = None -> c_macros C = after_header (e_conf e) (e_h e) ->
      eval (S n) C mm' [] (comparison md d desc) = Ok (vbool (decl_value d data =? w)%Z).
Proof. exact table_decodes. Qed.
Print Assumptions C61_decoded_partial.

(** one program selects an entry by its macro and sends the message, another one compares the signal with the macros *)
Theorem C61_sent_partial : forall srt1 srt2 bs e1 e2 es1 es2 md bits1 bits2 mx data hash mm1 mm2 dl data2 d w desc,
  project srt1 bs e1 -> read_entries srt1 (file_text bs) (e_db e1) es1 -> floats_on e1 = false ->
  project srt2 bs e2 -> read_entries srt2 (file_text bs) (e_db e2) es2 -> floats_on e2 = false ->
  In md (file_msgs bs) -> disjoint_bits md -> short_signed md ->
  pack_call e1 bits1 md mx data mm1 -> computing e1 bits1 md hash mm1 ->
  unpack_call bits2 md data2 dl mm2 -> counter_at e2 bits2 md mm2 -> monitored e2 md mm2 ->
  In d (md_sigs md) -> unscaled d -> decl_exact d -> ~ counter_decl e1 md d -> ~ checksum_decl e1 md d ->
  table_entry es1 md d w desc -> comparable d w -> decl_carries d w -> lookup (entry_macro_name md d desc) (e_conf e1) = None ->
  forall n C1, c_macros C1 = after_header (e_conf e1) (e_h e1) ->
  exists mm mm1' data' mm2', exec_expr (S n) C1 mm1 (selection md d desc) = Ok mm /\
    pack_decl e1 md mm = Ok (mm1', Some (VI U32 (frame_id md))) /\ frame e1 mm1' data' /\
    (firstn (N.to_nat (md_dlc md)) data2 = firstn (N.to_nat (md_dlc md)) data' ->
       unpack_decl e2 md mm2 = Ok (mm2', Some (VI U32 (frame_id md))) /\
       forall w' desc' k C2, table_entry es2 md d w' desc' -> comparable d w' -> lookup (entry_macro_name md d desc') (e_conf e2) = None ->
         c_macros C2 = after_header (e_conf e2) (e_h e2) -> eval (S k) C2 mm2' [] (comparison md d desc') = Ok (vbool (w =? w')%Z)).
Proof. exact table_sent. Qed.
Print Assumptions C61_sent_partial.

(** two signals with tables, then a signal of 48 bits with one *)
Definition mode : sigdecl := plain_sig "Mode" 0 4.
Definition code : sigdecl := plain_sig "Code" 32 32.
Definition count : sigdecl := plain_sig "Count" 0 48.
Definition panel : msgdecl := {| md_id := 7; md_name := "Panel"; md_dlc := 8; md_tx := "ECU"; md_sigs := [mode; code] |}.
Definition long : msgdecl := {| md_id := 8; md_name := "Long"; md_dlc := 8; md_tx := "ECU"; md_sigs := [count] |}.
Definition table_tail : list entry :=
  [EVals 7 "Mode" [(0%Z, "Off"); (1%Z, "Switched on")]; EVals 7 "Code" [(4294967295%Z, "Invalid"); (2147483648%Z, "Half")]; EVals 8 "Count" [(4294967295%Z, "Full")]].
Definition table_head : list block := [BLine "BU_: ECU GW"; BMsg panel; BMsg long].
Definition table_blocks : list block := (table_head ++ map BLine (file_lines table_tail))%list.
Definition table_list : list entry := (map EOther (flat_map block_lines table_head) ++ table_tail)%list.
Definition table_db : dbclist := Eval vm_compute in db_of (file_text table_blocks).
Definition table_files : list (string * string) := Eval vm_compute in files_of "drv" table_db.
Definition table_h : string := Eval vm_compute in snd (nth 0 table_files ("", "")).
Definition table_c : string := Eval vm_compute in snd (nth 1 table_files ("", "")).
Definition table : env := the_env 0 "drv" table_db table_h table_c [] no_user no_calls.
(** a unit with the header alone *)
Definition header_unit : ctx := {| c_types := fun _ => None; c_macros := after_header [] table_h; c_funs := fun _ => None; c_calls := fun _ => None |}.
Definition panel_mem (m c : Z) : mem := mk_mem (decl_members true panel [("Mode", m); ("Code", c)]) "_d" [].
Definition long_mem (z : Z) : mem := mk_mem (decl_members true long [("Count", z)]) "_d" [].

Lemma table_project : project isort table_blocks table.
Proof.
  constructor.
  - apply isort_sorts.
  - assert (O : forall l, lacks NL l && negb (String.prefix "BO_ " l) && (negb (mentions "SG_" l) || negb (spaced_colon l)) = true -> other_line l).
    { intros l H. unfold other_line. destruct (lacks NL l), (String.prefix "BO_ " l), (mentions "SG_" l), (spaced_colon l); cbn in H; try discriminate; auto. }
    assert (NN : forall s, negb (String.eqb s "") && all_chars node_char s = true -> node_name s).
    { intros s H. apply andb_true_iff in H as [H1 H2]. split; auto. intros ->. discriminate. }
    intros b B. repeat destruct B as [<-|B]; try contradiction; cbn [block_ok]; try (apply O; vm_compute; reflexivity);
      (constructor; cbn [md_id md_name md_dlc md_tx md_sigs panel long]; [vm_compute; reflexivity|split; [vm_compute; reflexivity|split; [vm_compute; reflexivity|lia]]|apply NN; reflexivity|apply NN; reflexivity|]).
    + intros s [<-|[<-|[]]]; (apply plain_ok; [apply NN; reflexivity|vm_compute; reflexivity|vm_compute; reflexivity]).
    + intros s [<-|[]]; (apply plain_ok; [apply NN; reflexivity|vm_compute; reflexivity|vm_compute; reflexivity]).
  - intros m [<-|[<-|[]]]; apply fitsb_ok; vm_compute; reflexivity.
  - apply nodupb_ok. vm_compute. reflexivity.
  - vm_compute. reflexivity.
  - exact (dr_run _ _ _ _ _ (driverb_ok "drv" table_db table_h table_c ltac:(vm_compute; reflexivity))).
  - vm_compute. split; [reflexivity|lia].
  - intros m M. apply entriesb_ok. revert m M. apply forallb_forall. vm_compute. reflexivity.
  - apply nodupb_ok. vm_compute. reflexivity.
  - intros x _. reflexivity.
Qed.
Lemma table_read : read_entries isort (file_text table_blocks) (e_db table) table_list.
Proof.
  constructor.
  - apply isort_sorts.
  - vm_compute. reflexivity.
  - vm_compute. reflexivity.
  - intros e H. apply entry_okb_ok. revert e H. apply forallb_forall. vm_compute. reflexivity.
  - vm_compute. repeat (constructor; [cbn; intuition congruence|]). constructor.
  - intros e n H. assert (X : forallb (fun e => match entry_id e with Some n => existsb (Z.eqb (Z.of_N n)) (map g_id (d_msgs table_db)) | None => true end) table_list = true) by (vm_compute; reflexivity).
    rewrite forallb_forall in X. specialize (X e H). intros E. rewrite E in X. apply existsb_exists in X as (z & Z1 & Z2). apply Z.eqb_eq in Z2. subst z. exact Z1.
Qed.
Lemma mode_entry : forall w desc, In (w, desc) [(0%Z, "Off"); (1%Z, "Switched on")] -> table_entry table_list panel mode w desc.
Proof.
  intros w desc I. exists (map EOther (flat_map block_lines table_head)), [(0%Z, "Off"); (1%Z, "Switched on")], (tl table_tail). split; [reflexivity|]. split; [exact I|].
  intros k u [X|[X|[]]]; discriminate X.
Qed.
Lemma code_entry : forall w desc, In (w, desc) [(4294967295%Z, "Invalid"); (2147483648%Z, "Half")] -> table_entry table_list panel code w desc.
Proof.
  intros w desc I. exists (map EOther (flat_map block_lines table_head) ++ firstn 1 table_tail)%list, [(4294967295%Z, "Invalid"); (2147483648%Z, "Half")], (skipn 2 table_tail).
  split; [reflexivity|]. split; [exact I|]. intros k u [X|[]]; discriminate X.
Qed.
Lemma count_entry : table_entry table_list long count 4294967295 "Full".
Proof.
  exists (map EOther (flat_map block_lines table_head) ++ firstn 2 table_tail)%list, [(4294967295%Z, "Full")], []. split; [reflexivity|]. split; [now left|]. intros k u [].
Qed.
Lemma panel_struct : forall m c, (m = 1 \/ m = 0)%Z -> (c = 4294967295 \/ c = 2147483648)%Z -> struct_at true (panel_mem m c) panel.
Proof. intros m c [->| ->] [->| ->] d [<-|[<-|[]]]; apply has_typeb_ok; vm_compute; reflexivity. Qed.

Example C61_case : project isort table_blocks table /\ read_entries isort (file_text table_blocks) (e_db table) table_list /\
  In panel (file_msgs table_blocks) /\ In mode (md_sigs panel) /\ In code (md_sigs panel) /\ unscaled mode /\ unscaled code /\
  table_entry table_list panel mode 1 "Switched on" /\ comparable mode 1 /\ table_entry table_list panel code 4294967295 "Invalid" /\ comparable code 4294967295 /\
  struct_at true (panel_mem 1 4294967295) panel /\ decl_is (panel_mem 1 4294967295) mode 1 /\ decl_is (panel_mem 1 4294967295) code 4294967295 /\
  c_macros header_unit = after_header (e_conf table) (e_h table) /\ comparison panel mode "Switched on" = EBin OEq (EFld true (EId "_m") "Mode") (EId "Mode_Panel_Switched_on") /\
  eval 1 header_unit (panel_mem 1 4294967295) [] (comparison panel mode "Switched on") = Ok (VI I32 1) /\
  eval 1 header_unit (panel_mem 1 4294967295) [] (comparison panel mode "Off") = Ok (VI I32 0) /\
  eval 1 header_unit (panel_mem 1 4294967295) [] (comparison panel code "Invalid") = Ok (VI I32 1).
Proof.
  split; [exact table_project|]. split; [exact table_read|]. split; [now left|]. split; [now left|]. split; [right; now left|]. split; [split; reflexivity|]. split; [split; reflexivity|].
  split; [apply mode_entry; right; now left|]. split; [left; lia|]. split; [apply code_entry; now left|]. split; [right; right; split; [reflexivity|]; split; [vm_compute; discriminate|lia]|].
  split; [apply panel_struct; auto|]. repeat split; vm_compute; reflexivity.
Qed.

Definition panel_data : list Z := [1; 0; 0; 0; 255; 255; 255; 255]%Z.
Definition panel_rx : mem := mk_mem (dlc_obj 8 :: decl_members true panel []) "_d" panel_data.
Example C61_decoded_case : floats_on table = false /\ short_signed panel /\ unpack_call true panel panel_data 8 panel_rx /\ counter_at table true panel panel_rx /\ monitored table panel panel_rx /\
  decl_exact mode /\ decl_exact code /\ exists mm', unpack_decl table panel panel_rx = Ok (mm', Some (VI U32 7)) /\
    eval 1 header_unit mm' [] (comparison panel mode "Switched on") = Ok (VI I32 1) /\ eval 1 header_unit mm' [] (comparison panel mode "Off") = Ok (VI I32 0) /\
    eval 1 header_unit mm' [] (comparison panel code "Invalid") = Ok (VI I32 1).
Proof.
  split; [vm_compute; reflexivity|]. split; [intros d D; repeat destruct D as [<-|D]; try contradiction; discriminate|].
  split.
  - constructor.
    + split; [split; [reflexivity|]|split].
      * intros q Q. cbn [panel_rx mk_mem m_arr]. destruct (String.eqb q "_d") eqn:E; [apply String.eqb_eq in E; contradiction|reflexivity].
      * intros x X. unfold is_byte. repeat destruct X as [<-|X]; try contradiction; lia.
      * vm_compute. discriminate.
    + split; [reflexivity|lia].
    + intros d D. repeat destruct D as [<-|D]; try contradiction; apply has_typeb_ok; vm_compute; reflexivity.
  - assert (B : monitors_on table = false /\ uncomputed table) by (split; [vm_compute; reflexivity|]; intros m I; repeat destruct I as [<-|I]; try contradiction; split; vm_compute; reflexivity).
    destruct (C53_basic table true panel (fun _ => 0%Z) panel_rx (proj1 B) (proj2 B)) as (A1 & A2 & _). split; [exact A1|]. split; [exact A2|].
    split; [left; vm_compute; discriminate|]. split; [left; vm_compute; discriminate|].
    eexists. split; [vm_compute; reflexivity|]. split; [vm_compute; reflexivity|]. split; vm_compute; reflexivity.
Qed.

Definition panel_tx : mem := mk_mem (("*_len", (LInt U8, VI U8 0)) :: ("*_ide", (LInt U8, VI U8 0)) :: decl_members true panel [("Code", 4294967295%Z)])%list "_d" (repeat 170%Z 8).
Lemma table_basic : monitors_on table = false /\ uncomputed table.
Proof. split; [vm_compute; reflexivity|]; intros m I; repeat destruct I as [<-|I]; try contradiction; split; vm_compute; reflexivity. Qed.
Example C61_sent_case : disjoint_bits panel /\ pack_call table true panel 8 (repeat 170%Z 8) panel_tx /\ computing table true panel (fun _ => 0%Z) panel_tx /\
  ~ counter_decl table panel mode /\ ~ checksum_decl table panel mode /\ decl_carries mode 1 /\
  exists mm mm', exec_expr 1 header_unit panel_tx (selection panel mode "Switched on") = Ok mm /\ pack_decl table panel mm = Ok (mm', Some (VI U32 7)) /\ frame table mm' panel_data.
Proof.
  assert (BF : buffer (struct_on table) = "_d") by (vm_compute; reflexivity). assert (SO : struct_on table = false) by (vm_compute; reflexivity).
  split; [apply disjointb_ok; vm_compute; reflexivity|]. split; [|split; [apply (C53_basic table true panel (fun _ => 0%Z) panel_tx (proj1 table_basic) (proj2 table_basic))|]].
  - constructor.
    + rewrite BF. split; [split; [reflexivity|]|split].
      * intros q Q. cbn [panel_tx mk_mem m_arr]. destruct (String.eqb q "_d") eqn:E; [apply String.eqb_eq in E; contradiction|reflexivity].
      * intros x X. apply repeat_spec in X. subst x. unfold is_byte. lia.
      * vm_compute. discriminate.
    + rewrite SO. split; eexists; reflexivity.
    + intros d D. repeat destruct D as [<-|D]; try contradiction; apply has_typeb_ok; vm_compute; reflexivity.
    + vm_compute. reflexivity.
    + split; [vm_compute; reflexivity|]. vm_compute. split; [discriminate|reflexivity].
  - split; [intros (m & s & (I & _) & C & _); destruct (proj2 table_basic m I); congruence|]. split; [intros (m & s & (I & _) & C & _); destruct (proj2 table_basic m I); congruence|].
    split; [vm_compute; split; [discriminate|reflexivity]|]. eexists. eexists. split; [vm_compute; reflexivity|]. split; [vm_compute; reflexivity|]. vm_compute. auto.
Qed.

(** the macro of 2147483648 is of type long, and negative; the member is converted to long and is positive *)
Theorem C61_compare_refuted : exists bs e es md d w desc mm C, project isort bs e /\ read_entries isort (file_text bs) (e_db e) es /\
  In md (file_msgs bs) /\ In d (md_sigs md) /\ unscaled d /\ sd_len d = 32%N /\ table_entry es md d w desc /\ lookup (entry_macro_name md d desc) (e_conf e) = None /\
  struct_at true mm md /\ decl_is mm d w /\ c_macros C = after_header (e_conf e) (e_h e) /\ w = 2147483648%Z /\
  eval 1 C mm [] (comparison md d desc) = Ok (VI I32 0).
Proof.
  exists table_blocks, table, table_list, panel, code, 2147483648%Z, "Half", (panel_mem 0 2147483648), header_unit.
  split; [exact table_project|]. split; [exact table_read|]. split; [now left|]. split; [right; now left|]. split; [split; reflexivity|]. split; [reflexivity|].
  split; [apply code_entry; right; now left|]. split; [reflexivity|]. split; [apply panel_struct; auto|]. repeat split; vm_compute; reflexivity.
Qed.
Print Assumptions C61_compare_refuted.
(** 4294967295 becomes the macro (-1), which is 2^64 - 1 next to a member of type uint64_t *)
Theorem C61_long_refuted : exists bs e es md d w desc mm C, project isort bs e /\ read_entries isort (file_text bs) (e_db e) es /\
  In md (file_msgs bs) /\ In d (md_sigs md) /\ unscaled d /\ sd_len d = 48%N /\ table_entry es md d w desc /\ lookup (entry_macro_name md d desc) (e_conf e) = None /\
  struct_at true mm md /\ decl_is mm d w /\ c_macros C = after_header (e_conf e) (e_h e) /\ w = 4294967295%Z /\
  eval 1 C mm [] (comparison md d desc) = Ok (VI I32 0).
Proof.
  exists table_blocks, table, table_list, long, count, 4294967295%Z, "Full", (long_mem 4294967295), header_unit.
  split; [exact table_project|]. split; [exact table_read|]. split; [right; now left|]. split; [now left|]. split; [split; reflexivity|]. split; [reflexivity|].
  split; [exact count_entry|]. split; [reflexivity|]. split; [intros d [<-|[]]; apply has_typeb_ok; vm_compute; reflexivity|]. repeat split; vm_compute; reflexivity.
Qed.
Print Assumptions C61_long_refuted.
