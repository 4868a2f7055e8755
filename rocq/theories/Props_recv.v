(** Property C59: frames between the nodes of a network, from the declarations in a DBC file to the receive structs. *)

From Coq Require Import ZArith NArith List String Ascii Bool Lia ZifyBool Permutation Sorted.
From Verif Require Import Base Dbl CSyntax CSem CRun Types Formatter Settings MainGen UtilGen LineParser Scanner App LexLemmas PPProof CodecSpec MsgSpec DriverSpec HeaderSpec
  StructSpec ScanSpec ScanPass1 SigSpec NamesSpec CodecEnv CodecThms Concrete Samples MonSamples UtilSpec UtilThms DeclSpec DeclThms PhysSpec PhysDecl RecvSpec RecvDecl
  Props_sigline Props_util Props_decl Props_phys.
Import ListNotations.
Open Scope string_scope.

(** ** C59.  Full claim: for every DBC file, when a frame of a message comes to Receive of a node that the file names as receiver
    of one of the message's signals, the node's receive struct has the declared values of all its signals afterwards;
    nothing else in the struct changes, and frames of other messages change nothing.  The theorems follow a file from its
    text ([project]) and the utility files from the same data base ([companion]).

    False when a standard and an extended frame have the same number (C59_equal_ids_refuted).  Missing: what C53 and C56
    miss for the values. *)

Theorem C59_receive_partial : forall srt bs e who h c md bits data dl mm, project srt bs e -> floats_on e = false ->
  companion e who h c -> NoDup (map frame_id (file_msgs bs)) -> receive_free e ->
  In md (file_msgs bs) -> declared_for who md -> short_signed md -> id_is mm (frame_id md) ->
  unpack_call bits md data dl (inside (md_name md) mm) -> counter_at e bits md (inside (md_name md) mm) -> monitored e md (inside (md_name md) mm) ->
  exists mm', receive e who c mm = Ok (mm', Some (VI U32 (frame_id md))) /\
    (forall d, In d (md_sigs md) -> decl_exact d -> slot_is mm' md d (decl_value d data)) /\ rest_kept md mm mm'.
Proof. exact receive_declared. Qed.
Print Assumptions C59_receive_partial.

(** with signal conversion the physical values arrive as well *)
Theorem C59_receive_phys_partial : forall srt bs e who h c md bits data dl mm, project srt bs e -> floats_on e = true ->
  companion e who h c -> NoDup (map frame_id (file_msgs bs)) -> receive_free e ->
  In md (file_msgs bs) -> declared_for who md -> short_signed md -> convertible (file_msgs bs) md -> id_is mm (frame_id md) ->
  unpack_call bits md data dl (inside (md_name md) mm) -> phys_struct (inside (md_name md) mm) md ->
  counter_at e bits md (inside (md_name md) mm) -> monitored e md (inside (md_name md) mm) ->
  exists mm', receive e who c mm = Ok (mm', Some (VI U32 (frame_id md))) /\
    (forall d, In d (md_sigs md) -> decl_exact d -> slot_is mm' md d (decl_value d data) /\
       (unscaledb d = false -> exists v, m_scal mm' (sub_path (md_name md) (phys_name d)) = Some (phys_object d, v) /\ phys_value d (decl_value d data) v)) /\
    rest_kept md mm mm'.
Proof. exact receive_phys. Qed.
Print Assumptions C59_receive_phys_partial.

(** an ID that belongs to no message declared for the node: 0 is returned and no object of the caller changes *)
Theorem C59_ignored_partial : forall srt bs e who h c mm i, project srt bs e -> companion e who h c -> NoDup (map frame_id (file_msgs bs)) -> receive_free e ->
  (exists md, In md (file_msgs bs) /\ declared_for who md) -> id_is mm i ->
  (forall md, In md (file_msgs bs) -> declared_for who md -> frame_id md <> i) ->
  exists mm', receive e who c mm = Ok (mm', Some (VI U32 0)) /\ (forall p, p <> "recid" -> m_scal mm' p = m_scal mm p) /\ m_arr mm' = m_arr mm.
Proof. exact receive_ignored. Qed.
Print Assumptions C59_ignored_partial.

(** from one node to another: Pack on the sender, Receive on the receiver *)
Theorem C59_network_partial : forall srt1 srt2 bs e1 e2 who h c md bits1 bits2 mx data hash mm1 mm2 dl data2,
  project srt1 bs e1 -> floats_on e1 = false -> project srt2 bs e2 -> floats_on e2 = false ->
  companion e2 who h c -> NoDup (map frame_id (file_msgs bs)) -> receive_free e2 ->
  In md (file_msgs bs) -> declared_for who md -> disjoint_bits md -> short_signed md ->
  pack_call e1 bits1 md mx data mm1 -> computing e1 bits1 md hash mm1 -> id_is mm2 (frame_id md) ->
  unpack_call bits2 md data2 dl (inside (md_name md) mm2) -> counter_at e2 bits2 md (inside (md_name md) mm2) -> monitored e2 md (inside (md_name md) mm2) ->
  exists mm1' data' mm2', pack_decl e1 md mm1 = Ok (mm1', Some (VI U32 (frame_id md))) /\ frame e1 mm1' data' /\
    (firstn (N.to_nat (md_dlc md)) data2 = firstn (N.to_nat (md_dlc md)) data' ->
       receive e2 who c mm2 = Ok (mm2', Some (VI U32 (frame_id md))) /\ rest_kept md mm2 mm2' /\
       forall d z, In d (md_sigs md) -> decl_exact d -> ~ checksum_decl e1 md d -> decl_is mm1 d z ->
         (~ counter_decl e1 md d -> decl_carries d z -> slot_is mm2' md d z) /\
         (counter_decl e1 md d -> sd_signed d = false -> slot_is mm2' md d ((z + 1) mod 2 ^ Z.of_N (sd_len d)))).
Proof. exact sent_over_network. Qed.
Print Assumptions C59_network_partial.

(** with conversion on both sides the receiver gets the physical values that belong to the recovered raw values (see C56) *)
Theorem C59_network_phys_partial : forall srt1 srt2 bs e1 e2 who h c md bits1 bits2 mx data hash mm1 mm2 dl data2 raw,
  project srt1 bs e1 -> floats_on e1 = true -> project srt2 bs e2 -> floats_on e2 = true ->
  companion e2 who h c -> NoDup (map frame_id (file_msgs bs)) -> receive_free e2 ->
  In md (file_msgs bs) -> declared_for who md -> disjoint_bits md -> short_signed md -> convertible (file_msgs bs) md ->
  pack_call e1 bits1 md mx data mm1 -> computing e1 bits1 md hash mm1 -> plain_sum e1 md -> phys_struct mm1 md -> phys_of mm1 md raw ->
  id_is mm2 (frame_id md) -> unpack_call bits2 md data2 dl (inside (md_name md) mm2) -> phys_struct (inside (md_name md) mm2) md ->
  counter_at e2 bits2 md (inside (md_name md) mm2) -> monitored e2 md (inside (md_name md) mm2) ->
  exists mm1' data' mm2', pack_decl e1 md mm1 = Ok (mm1', Some (VI U32 (frame_id md))) /\ frame e1 mm1' data' /\
    (firstn (N.to_nat (md_dlc md)) data2 = firstn (N.to_nat (md_dlc md)) data' ->
       receive e2 who c mm2 = Ok (mm2', Some (VI U32 (frame_id md))) /\ rest_kept md mm2 mm2' /\
       forall d, In d (md_sigs md) -> decl_exact d ->
         (unscaledb d = true -> ~ counter_decl e1 md d -> ~ checksum_decl e1 md d -> forall z, decl_is mm1 d z -> decl_carries d z -> slot_is mm2' md d z) /\
         (unscaledb d = false -> exists w v, recovered d (raw d) w /\ slot_is mm2' md d w /\
            m_scal mm2' (sub_path (md_name md) (phys_name d)) = Some (phys_object d, v) /\ phys_value d w v)).
Proof. exact phys_over_network. Qed.
Print Assumptions C59_network_phys_partial.

(** the tool writes such files for every node, whatever the options *)
Theorem C59_written : forall srt bs e who srt2 out date dbc nc ni nf, project srt bs e -> orders srt2 ->
  match date with Some t => no_nl t = true | None => True end -> no_nl dbc = true ->
  is_ident (util_name (e_drv e) who) = true -> (String.length (util_name (e_drv e) who) <= 2000)%nat ->
  let s := util_settings (e_drv e) who (configure (e_drv e) out (common_info date) (driver_info dbc) (d_verhi (e_db e)) (d_verlow (e_db e)) nc ni nf) in
  exists h c, generate_util srt2 (e_db e) s (util_groups (e_db e) who) (e_drv e) = [(f_utilh_path (st_f s), h); (f_utilc_path (st_f s), c)] /\ companion e who h c.
Proof. exact companion_written. Qed.
Print Assumptions C59_written.

(** the receive struct in the header has one member for each message declared for the node, in the order of the frame numbers *)
Theorem C59_struct_partial : forall srt bs e who h c M, project srt bs e -> companion e who h c -> clean h -> NoDup (map frame_id (file_msgs bs)) ->
  exists rx, (forall md, In md rx <-> In md (file_msgs bs) /\ declared_for who md) /\
    StronglySorted (fun a b => frame_id a < frame_id b)%Z rx /\
    (rx <> [] -> declares (text_toks M h) (util_name (e_drv e) who ++ "_rx_t") (map slot_of rx)).
Proof. exact receive_struct. Qed.
Print Assumptions C59_struct_partial.

(** ** The file of C53, node Dash_2, which receives Engine only *)

Lemma companion_of : forall e who h c, utilityb (e_drv e) (e_db e) who h c = true -> companion e who h c.
Proof. intros e who h c H. apply utilityb_ok in H. destruct H as [R _ N _]. constructor; [exact R|exact N]. Qed.
Definition dash_util : list (string * string) := Eval vm_compute in util_of "drv" two_db (Some "Dash_2").
Definition dash_h : string := Eval vm_compute in snd (nth 0 dash_util ("", "")).
Definition dash_c : string := Eval vm_compute in snd (nth 1 dash_util ("", "")).
Definition dash_all : list (string * string) := Eval vm_compute in util_of "drv" two_db None.
Definition dash_all_h : string := Eval vm_compute in snd (nth 0 dash_all ("", "")).
Definition dash_all_c : string := Eval vm_compute in snd (nth 1 dash_all ("", "")).
Definition slots (bits : bool) (m : msgdecl) (v : Z) : list (string * (lty * cval)) :=
  map (fun d => (sub_path (md_name m) (field_name d), (field_object bits d, obj (field_object bits d) v))) (md_sigs m).
Definition dash_mem (i : Z) : mem := mk_mem (("_id", (LInt U32, VI U32 i)) :: dlc_obj 8 :: slots true engine_decl 0 ++ slots true last_decl 3)%list "_d" two_bytes.

Example C59_case : project isort two_blocks two /\ floats_on two = false /\ companion two (Some "Dash_2") dash_h dash_c /\
  NoDup (map frame_id (file_msgs two_blocks)) /\ receive_free two /\ declared_for (Some "Dash_2") engine_decl /\ ~ declared_for (Some "Dash_2") last_decl /\
  id_is (dash_mem 291) (frame_id engine_decl) /\ unpack_call true engine_decl two_bytes 8 (inside "Engine" (dash_mem 291)) /\
  exists mm', receive two (Some "Dash_2") dash_c (dash_mem 291) = Ok (mm', Some (VI U32 291)) /\
    slot_is mm' engine_decl speed (-13) /\ slot_is mm' engine_decl (plain_sig "Torque" 33 6) 21 /\ slot_is mm' last_decl (plain_sig "A" 0 8) 3.
Proof.
  destruct C53_project as [P B]. split; [exact P|]. split; [apply B|]. split; [apply companion_of; vm_compute; reflexivity|].
  split; [vm_compute; repeat (constructor; [cbn; intuition discriminate|]); constructor|]. split; [split; vm_compute; reflexivity|].
  split; [split; [discriminate|]; exists speed; cbn; auto|]. split; [|split; [split; [reflexivity|vm_compute; split; [discriminate|reflexivity]]|split]].
  - intros (_ & d & D & R). cbn [last_decl md_sigs In] in D. destruct D as [<-|[<-|[]]]; cbn in R; intuition discriminate.
  - constructor.
    + split; [split; [reflexivity|]|split].
      * intros q Q. cbn [inside dash_mem mk_mem m_arr]. destruct (String.eqb q "_d") eqn:E; [apply String.eqb_eq in E; contradiction|reflexivity].
      * intros x X. unfold is_byte. repeat destruct X as [<-|X]; try contradiction; lia.
      * vm_compute. discriminate.
    + split; [reflexivity|lia].
    + intros d D. repeat destruct D as [<-|D]; try contradiction; apply has_typeb_ok; vm_compute; reflexivity.
  - eexists. split; [vm_compute; reflexivity|]. vm_compute. auto.
Qed.
(** Last goes to other nodes *)
Example C59_ignored_case : (forall md, In md (file_msgs two_blocks) -> declared_for (Some "Dash_2") md -> frame_id md <> frame_id last_decl) /\
  exists mm', receive two (Some "Dash_2") dash_c (dash_mem (frame_id last_decl)) = Ok (mm', Some (VI U32 0)) /\ slot_is mm' last_decl (plain_sig "A" 0 8) 3.
Proof.
  split; [|eexists; split; [vm_compute; reflexivity|vm_compute; reflexivity]].
  destruct C59_case as (_ & _ & _ & _ & _ & _ & N & _). intros md [<-|[<-|[]]] D; [vm_compute; discriminate|contradiction].
Qed.

Example C59_struct_case : clean dash_h /\ clean dash_all_h /\ forall M, exists rx, declares (text_toks M dash_all_h) "drv_rx_t" (map slot_of rx) /\ rx = [last_decl; engine_decl].
Proof.
  split; [vm_compute; reflexivity|]. split; [vm_compute; reflexivity|]. intros M. destruct C59_case as (P & _ & _ & N & _).
  destruct (C59_struct_partial isort two_blocks two None dash_all_h dash_all_c M P ltac:(apply companion_of; vm_compute; reflexivity) ltac:(vm_compute; reflexivity) N) as (rx & I & S & D).
  assert (E : rx = [last_decl; engine_decl]).
  { apply (sorted_eq _ frame_id); [exact S|repeat constructor|]. intros md. rewrite I. split.
    - intros [[<-|[<-|[]]] _]; cbn; auto.
    - intros [<-|[<-|[]]]; (split; [cbn; auto|split; [discriminate|exact Logic.I]]). }
  exists rx. split; [apply D; rewrite E; discriminate|exact E].
Qed.

(** conversion: the file of C56 *)
Definition cab_util : list (string * string) := Eval vm_compute in util_of "drv" cab_db None.
Definition cab_util_h : string := Eval vm_compute in snd (nth 0 cab_util ("", "")).
Definition cab_util_c : string := Eval vm_compute in snd (nth 1 cab_util ("", "")).
Definition cab_net : mem := mk_mem (("_id", (LInt U32, VI U32 100)) :: dlc_obj 4 ::
  map (fun d => (sub_path "Cabin" (field_name d), (field_object false d, obj (field_object false d) 0))) (md_sigs cabin) ++
  [(sub_path "Cabin" (phys_name temp), (LInt I16, VI I16 0)); (sub_path "Cabin" (phys_name dist), (LDbl, VD zero_dbl))])%list "_d" [50; 144; 1; 21]%Z.
Example C59_phys_case : companion cab None cab_util_h cab_util_c /\ receive_free cab /\ NoDup (map frame_id (file_msgs cab_blocks)) /\ declared_for None cabin /\
  id_is cab_net (frame_id cabin) /\
  unpack_call false cabin [50; 144; 1; 21]%Z 4 (inside "Cabin" cab_net) /\ phys_struct (inside "Cabin" cab_net) cabin /\
  exists mm', receive cab None cab_util_c cab_net = Ok (mm', Some (VI U32 100)) /\ slot_is mm' cabin temp 50 /\
    m_scal mm' (sub_path "Cabin" (phys_name temp)) = Some (LInt I16, VI I16 60).
Proof.
  split; [apply companion_of; vm_compute; reflexivity|]. split; [split; vm_compute; reflexivity|].
  split; [vm_compute; repeat (constructor; [cbn; intuition discriminate|]); constructor|]. split; [split; [discriminate|exact Logic.I]|].
  split; [split; [reflexivity|vm_compute; split; [discriminate|reflexivity]]|]. split; [|split].
  - constructor.
    + split; [split; [reflexivity|]|split].
      * intros q Q. cbn [inside cab_net mk_mem m_arr]. destruct (String.eqb q "_d") eqn:E; [apply String.eqb_eq in E; contradiction|reflexivity].
      * intros x X. unfold is_byte. repeat destruct X as [<-|X]; try contradiction; lia.
      * vm_compute. discriminate.
    + split; [reflexivity|lia].
    + intros d D. repeat destruct D as [<-|D]; try contradiction; apply has_typeb_ok; vm_compute; reflexivity.
  - intros d D. repeat destruct D as [<-|D]; try contradiction; intros U; try discriminate U; apply has_typeb_ok; vm_compute; reflexivity.
  - eexists. split; [vm_compute; reflexivity|]. vm_compute. auto.
Qed.

(** ** Two frames with one number *)

(** The receive struct has a member for each of the messages.  The frame of the extended one arrives in the member of the
    standard one, and its own member keeps its old value. *)
Definition std_decl : msgdecl := {| md_id := 5; md_name := "Std"; md_dlc := 2; md_tx := "ECU"; md_sigs := [plain_sig "A" 0 8] |}.
Definition ext_decl : msgdecl := {| md_id := 2147483653; md_name := "Ext"; md_dlc := 2; md_tx := "ECU"; md_sigs := [plain_sig "B" 0 8] |}.
Definition num_blocks : list block := [BLine "BU_: ECU GW"; BMsg std_decl; BMsg ext_decl].
Definition num_db : dbclist := Eval vm_compute in db_of (file_text num_blocks).
Definition num_files : list (string * string) := Eval vm_compute in files_of "drv" num_db.
Definition num_h : string := Eval vm_compute in snd (nth 0 num_files ("", "")).
Definition num_c : string := Eval vm_compute in snd (nth 1 num_files ("", "")).
Definition num : env := the_env 0 "drv" num_db num_h num_c [] no_user no_calls.
Definition num_util : list (string * string) := Eval vm_compute in util_of "drv" num_db None.
Definition num_util_h : string := Eval vm_compute in snd (nth 0 num_util ("", "")).
Definition num_util_c : string := Eval vm_compute in snd (nth 1 num_util ("", "")).
Definition num_mem : mem := mk_mem (("_id", (LInt U32, VI U32 5)) :: dlc_obj 2 :: slots false std_decl 3 ++ slots false ext_decl 3)%list "_d" [42; 0]%Z.

Theorem C59_equal_ids_refuted : exists bs e h c md other d x data mm mm', project isort bs e /\ basic e /\ companion e None h c /\ receive_free e /\
  In md (file_msgs bs) /\ declared_for None md /\ In other (file_msgs bs) /\ md_name other <> md_name md /\ md_id other <> md_id md /\
  id_is mm (frame_id md) /\ unpack_call false md data 2 (inside (md_name md) mm) /\
  receive e None c mm = Ok (mm', Some (VI U32 (frame_id md))) /\
  In d (md_sigs md) /\ decl_value d data = 42%Z /\ slot_is mm md d 3 /\ slot_is mm' md d 3 /\
  In x (md_sigs other) /\ slot_is mm other x 3 /\ slot_is mm' other x 42.
Proof.
  exists num_blocks, num, num_util_h, num_util_c, ext_decl, std_decl, (plain_sig "B" 0 8), (plain_sig "A" 0 8), [42; 0]%Z, num_mem. eexists.
  split; [|split; [|split; [apply companion_of; vm_compute; reflexivity|split; [split; vm_compute; reflexivity|]]]].
  - constructor.
    + apply isort_sorts.
    + assert (O : forall l, lacks NL l && negb (String.prefix "BO_ " l) && (negb (mentions "SG_" l) || negb (spaced_colon l)) = true -> other_line l).
      { intros l H. unfold other_line. destruct (lacks NL l), (String.prefix "BO_ " l), (mentions "SG_" l), (spaced_colon l); cbn in H; try discriminate; auto. }
      assert (NN : forall s, negb (String.eqb s "") && all_chars node_char s = true -> node_name s).
      { intros s H. apply andb_true_iff in H as [H1 H2]. split; auto. intros ->. discriminate. }
      intros b B. repeat destruct B as [<-|B]; try contradiction; cbn [block_ok]; try (apply O; vm_compute; reflexivity);
        (constructor; cbn [md_id md_name md_dlc md_tx md_sigs std_decl ext_decl]; [vm_compute; reflexivity|split; [vm_compute; reflexivity|split; [vm_compute; reflexivity|lia]]|apply NN; reflexivity|apply NN; reflexivity|]);
        (intros s [<-|[]]; apply plain_ok; [apply NN; reflexivity|vm_compute; reflexivity|vm_compute; reflexivity]).
    + intros m [<-|[<-|[]]]; apply fitsb_ok; vm_compute; reflexivity.
    + apply nodupb_ok. vm_compute. reflexivity.
    + vm_compute. reflexivity.
    + exact (dr_run _ _ _ _ _ (driverb_ok "drv" num_db num_h num_c ltac:(vm_compute; reflexivity))).
    + vm_compute. split; [reflexivity|lia].
    + intros m M. apply entriesb_ok. revert m M. apply forallb_forall. vm_compute. reflexivity.
    + apply nodupb_ok. vm_compute. reflexivity.
    + intros x I. repeat destruct I as [<-|I]; try contradiction; reflexivity.
  - split; [vm_compute; reflexivity|]. split; [vm_compute; reflexivity|]. intros m I. repeat destruct I as [<-|I]; try contradiction; split; vm_compute; reflexivity.
  - split; [cbn; auto|]. split; [split; [discriminate|exact Logic.I]|]. split; [cbn; auto|]. split; [discriminate|]. split; [discriminate|].
    split; [split; [reflexivity|vm_compute; split; [discriminate|reflexivity]]|]. split; [|split; [vm_compute; reflexivity|]].
    + constructor.
      * split; [split; [reflexivity|]|split].
        -- intros q Q. cbn [inside num_mem mk_mem m_arr]. destruct (String.eqb q "_d") eqn:E; [apply String.eqb_eq in E; contradiction|reflexivity].
        -- intros x X. unfold is_byte. repeat destruct X as [<-|X]; try contradiction; lia.
        -- vm_compute. discriminate.
      * split; [reflexivity|lia].
      * intros d D. repeat destruct D as [<-|D]; try contradiction; apply has_typeb_ok; vm_compute; reflexivity.
    + vm_compute. auto 20.
Qed.
Print Assumptions C59_equal_ids_refuted.
