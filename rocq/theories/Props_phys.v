(** Property C56: physical values, from the declarations in a DBC file to the members that the generated code fills and reads. *)

From Coq Require Import ZArith NArith QArith Qabs List String Ascii Bool Lia ZifyBool Permutation.
From Verif Require Import Base Dbl CSyntax CSem CRun Types Formatter Settings MainGen LineParser Scanner App LexLemmas PPProof CodecSpec MsgSpec DriverSpec HeaderSpec
  ScanSpec SigSpec SigTypes NamesSpec CodecEnv ConvSpec Concrete Samples MonSamples DeclSpec PhysSpec PhysType PhysDecl Props_sigline Props_decl.
Import ListNotations.
Open Scope string_scope.
Open Scope Z_scope.

(** ** C56.  Full claim: with signal conversion switched on, Unpack stores factor * raw + offset in the physical member of every
    scaled signal, and Pack of a physical value sends the raw value it belongs to.  The theorems follow a file from its text
    ([project]), and factor and offset are the numbers written there.  Integer scalings are exact.  Other physical values are
    doubles, and [tolerance] bounds how far they are off; on the way back one raw step towards zero may be lost, and the
    claim is refuted below by a frame that changes when it is unpacked and packed again.

    False for integer scalings with a negative factor (C56_negative_refuted).  Missing: integer scalings with an overflow, numbers above 1e30, a scaled checksum, and the layouts
    that C01 and C03 refute. *)

(** ... also, each physical member has the smallest type for its range *)
Theorem C56_unpack_partial : forall srt bs e md bits data dl mm, project srt bs e -> floats_on e = true ->
  In md (file_msgs bs) -> md_sigs md <> [] -> short_signed md -> convertible (file_msgs bs) md ->
  unpack_call bits md data dl mm -> phys_struct mm md -> counter_at e bits md mm -> monitored e md mm ->
  exists mm', unpack_decl e md mm = Ok (mm', Some (VI U32 (frame_id md))) /\
    forall d, In d (md_sigs md) -> decl_exact d -> decl_is mm' d (decl_value d data) /\
      (unscaledb d = false -> exists v, phys_is mm' d v /\ phys_value d (decl_value d data) v).
Proof. exact unpack_phys. Qed.
Print Assumptions C56_unpack_partial.

(** a counter is incremented; a scaled one has its physical value declared twice, so that C refuses the header (C58_counter_refuted) *)
Theorem C56_pack_partial : forall srt bs e md bits mx data hash mm raw, project srt bs e -> floats_on e = true ->
  In md (file_msgs bs) -> md_sigs md <> [] -> disjoint_bits md -> convertible (file_msgs bs) md ->
  pack_call e bits md mx data mm -> computing e bits md hash mm -> plain_sum e md -> phys_struct mm md -> phys_of mm md raw ->
  exists mm' data', pack_decl e md mm = Ok (mm', Some (VI U32 (frame_id md))) /\ frame e mm' data' /\
    (forall d z, In d (md_sigs md) -> unscaledb d = true -> ~ counter_decl e md d -> ~ checksum_decl e md d -> decl_is mm d z -> carried_bits d data' z) /\
    (forall d z, In d (md_sigs md) -> unscaledb d = true -> counter_decl e md d -> ~ checksum_decl e md d -> decl_is mm d z -> carried_bits d data' (z + 1)) /\
    (forall d, In d (md_sigs md) -> unscaledb d = false ->
       exists w, recovered d (raw d) w /\ decl_carries d w /\ carried_bits d data' w) /\
    (forall d, In d (md_sigs md) -> checksum_decl e md d -> exists data0, cleared d data' data0 /\ carried_bits d data' (hash data0)) /\
    (forall p, 0 <= p < 8 * Z.of_N (md_dlc md) -> (forall d, In d (md_sigs md) -> ~ decl_covers d p) -> payload_bit data' p = false).
Proof. exact pack_phys. Qed.
Print Assumptions C56_pack_partial.

(** a frame packed by one program and unpacked by another that was made from the same file, perhaps with other options *)
Theorem C56_roundtrip_partial : forall srt1 srt2 bs e1 e2 md bits1 bits2 mx data hash mm1 mm2 dl data2 raw,
  project srt1 bs e1 -> floats_on e1 = true -> project srt2 bs e2 -> floats_on e2 = true ->
  In md (file_msgs bs) -> md_sigs md <> [] -> disjoint_bits md -> short_signed md -> convertible (file_msgs bs) md ->
  pack_call e1 bits1 md mx data mm1 -> computing e1 bits1 md hash mm1 -> plain_sum e1 md -> phys_struct mm1 md -> phys_of mm1 md raw ->
  unpack_call bits2 md data2 dl mm2 -> phys_struct mm2 md -> counter_at e2 bits2 md mm2 -> monitored e2 md mm2 ->
  exists mm1' data' mm2', pack_decl e1 md mm1 = Ok (mm1', Some (VI U32 (frame_id md))) /\ frame e1 mm1' data' /\
    (firstn (N.to_nat (md_dlc md)) data2 = firstn (N.to_nat (md_dlc md)) data' ->
       unpack_decl e2 md mm2 = Ok (mm2', Some (VI U32 (frame_id md))) /\
       forall d, In d (md_sigs md) -> decl_exact d ->
         (unscaledb d = true -> ~ counter_decl e1 md d -> ~ checksum_decl e1 md d -> forall z, decl_is mm1 d z -> decl_carries d z -> decl_is mm2' d z) /\
         (unscaledb d = false -> exists w v, recovered d (raw d) w /\ decl_is mm2' d w /\ phys_is mm2' d v /\ phys_value d w v)).
Proof. exact phys_sent_and_received. Qed.
Print Assumptions C56_roundtrip_partial.

(** the physical types of C15: with a positive integer factor exactly the smallest type *)
Theorem C56_smallest_type : forall (signed : bool) len factor offset ro ph F G, 1 <= len <= 255 ->
  get_sig_type signed len false factor offset = Ok (ro, ph) -> int_val factor F -> int_val offset G -> 0 < F -> - 2 ^ 53 < G < 2 ^ 53 ->
  ph = smallest_type signed len F G.
Proof. exact phys_choice. Qed.
Print Assumptions C56_smallest_type.

(** ** A file *)

Definition temp : sigdecl :=
  {| sd_name := "Temp"; sd_mark := MarkNone; sd_start := 0; sd_len := 8; sd_order := Intel; sd_signed := false;
     sd_factor := NInt 2; sd_offset := NInt (-40); sd_low := "-40"; sd_high := "470"; sd_unit := "degC"; sd_recs := ["GW"] |}.
Definition dist : sigdecl :=
  {| sd_name := "Dist"; sd_mark := MarkNone; sd_start := 8; sd_len := 12; sd_order := Intel; sd_signed := false;
     sd_factor := NDec false "0" "1" None; sd_offset := NInt (-40); sd_low := "-40"; sd_high := "369.5"; sd_unit := "m"; sd_recs := ["GW"] |}.
Definition cabin : msgdecl := {| md_id := 100; md_name := "Cabin"; md_dlc := 4; md_tx := "ECU"; md_sigs := [temp; dist; plain_sig "Level" 24 6] |}.
Definition cab_blocks : list block :=
  [BLine "BU_: ECU GW"; BLine ""; BMsg cabin; BLine ""; BMsg last_decl; BLine ("CM_ SG_ 100 Temp " ++ dq ++ "of the air" ++ dq ++ ";");
   BLine ("CM_ SG_ 6 B " ++ dq ++ "<RollingCounter>" ++ dq ++ ";"); BLine ("VAL_ 100 Level 0 " ++ dq ++ "Empty" ++ dq ++ " 63 " ++ dq ++ "Full" ++ dq ++ " ;")].
Definition cab_db : dbclist := Eval vm_compute in db_of (file_text cab_blocks).
Definition cab_files : list (string * string) := Eval vm_compute in files_of "drv" cab_db.
Definition cab_h : string := Eval vm_compute in snd (nth 0 cab_files ("", "")).
Definition cab_c : string := Eval vm_compute in snd (nth 1 cab_files ("", "")).
Definition cab : env := the_env 0 "drv" cab_db cab_h cab_c [("DRV_USE_SIGFLOAT", {| m_params := None; m_body := [] |})] no_user no_calls.

Lemma temp_ok : clear_decl temp.
Proof.
  split; [|split; vm_compute; reflexivity]. constructor; cbn; try (vm_compute; reflexivity); try discriminate.
  - split; [discriminate|reflexivity].
  - vm_compute. auto.
  - vm_compute. auto.
  - split; [discriminate|reflexivity].
  - split; [discriminate|reflexivity].
  - intros x [<-|[]]; split; try discriminate; reflexivity.
Qed.
Lemma dist_ok : clear_decl dist.
Proof.
  split; [|split; vm_compute; reflexivity]. constructor; cbn; try (vm_compute; reflexivity); try discriminate.
  - split; [discriminate|reflexivity].
  - split; (split; [discriminate|reflexivity]).
  - vm_compute. auto.
  - split; [discriminate|reflexivity].
  - split; [discriminate|reflexivity].
  - intros x [<-|[]]; split; try discriminate; reflexivity.
Qed.
Example C56_project : project isort cab_blocks cab /\ floats_on cab = true /\ monitors_on cab = false /\ uncomputed cab.
Proof.
  split; [|split; [vm_compute; reflexivity|split; [vm_compute; reflexivity|]]; intros m [<-|[<-|[]]]; split; vm_compute; reflexivity]. constructor.
  - apply isort_sorts.
  - assert (O : forall l, lacks NL l && negb (String.prefix "BO_ " l) && (negb (mentions "SG_" l) || negb (spaced_colon l)) = true -> other_line l).
    { intros l H. unfold other_line. destruct (lacks NL l), (String.prefix "BO_ " l), (mentions "SG_" l), (spaced_colon l); cbn in H; try discriminate; auto. }
    assert (NN : forall s, negb (String.eqb s "") && all_chars node_char s = true -> node_name s).
    { intros s H. apply andb_true_iff in H as [H1 H2]. split; auto. intros ->. discriminate. }
    intros b B. repeat destruct B as [<-|B]; try contradiction; cbn [block_ok]; try (apply O; vm_compute; reflexivity);
      (constructor; cbn [md_id md_name md_dlc md_tx md_sigs cabin last_decl]; [vm_compute; reflexivity|split; [vm_compute; reflexivity|split; [vm_compute; reflexivity|lia]]|apply NN; reflexivity|apply NN; reflexivity|]).
    + intros s [<-|[<-|[<-|[]]]]; [apply temp_ok|apply dist_ok|]; (apply plain_ok; [apply NN; reflexivity|vm_compute; reflexivity|vm_compute; reflexivity]).
    + intros s [<-|[<-|[]]]; (apply plain_ok; [apply NN; reflexivity|vm_compute; reflexivity|vm_compute; reflexivity]).
  - intros m [<-|[<-|[]]]; apply fitsb_ok; vm_compute; reflexivity.
  - apply nodupb_ok. vm_compute. reflexivity.
  - vm_compute. reflexivity.
  - exact (dr_run _ _ _ _ _ (driverb_ok "drv" cab_db cab_h cab_c ltac:(vm_compute; reflexivity))).
  - vm_compute. split; [reflexivity|lia].
  - intros m M. apply entriesb_ok. revert m M. apply forallb_forall. vm_compute. reflexivity.
  - apply nodupb_ok. vm_compute. reflexivity.
  - intros x I. repeat destruct I as [<-|I]; try contradiction; reflexivity.
Qed.
Example C56_convertible : convertible (file_msgs cab_blocks) cabin /\ phys_object temp = LInt I16 /\ phys_object dist = LDbl.
Proof.
  split; [|split; vm_compute; reflexivity]. intros d D US. repeat destruct D as [<-|D]; try contradiction; try discriminate US; split.
  - split; [lia|]. split; [unfold literal_int; lia|]. split; [unfold literal_int; lia|]. intros z C. unfold decl_carries, carries in C. cbn in C. cbn. unfold can_hold. cbn. lia.
  - intros m d M D U N. repeat destruct M as [<-|M]; try contradiction; repeat destruct D as [<-|D]; try contradiction; try discriminate U; try discriminate N; auto.
  - split; unfold moderate; vm_compute; discriminate.
  - intros m d M D U N. repeat destruct M as [<-|M]; try contradiction; repeat destruct D as [<-|D]; try contradiction; try discriminate U; try discriminate N; auto.
Qed.

(** ** Calls *)

Definition cab_struct (temp_raw temp_phys dist_raw level : Z) (dist_phys : dbl) : list (string * (lty * cval)) :=
  [(member "Temp_ro", (LInt U8, VI U8 temp_raw)); (member "Temp_phys", (LInt I16, VI I16 temp_phys));
   (member "Dist_ro", (LInt U16, VI U16 dist_raw)); (member "Dist_phys", (LDbl, VD dist_phys)); (member "Level", (LInt U8, VI U8 level))].
Definition cab_mem (st : list (string * (lty * cval))) (data : list Z) : mem :=
  mk_mem (dlc_obj 4 :: ("*_len", (LInt U8, VI U8 0)) :: ("*_ide", (LInt U8, VI U8 0)) :: st)%list "_d" data.
Definition zero_dbl : dbl := dbl_of_Z 0.
Definition cab_rx : mem := cab_mem (cab_struct 0 0 0 0 zero_dbl) [50; 144; 1; 21]%Z.
(** 400 * 0.1 - 40 = 0 *)
Example C56_unpack_case : unpack_call false cabin [50; 144; 1; 21] 4 cab_rx /\ phys_struct cab_rx cabin /\ short_signed cabin /\
  (forall d, In d (md_sigs cabin) -> decl_exact d) /\
  exists mm', unpack_decl cab cabin cab_rx = Ok (mm', Some (VI U32 100)) /\
    decl_is mm' temp 50 /\ phys_is mm' temp (VI I16 60) /\ decl_is mm' dist 400 /\ phys_is mm' dist (VD zero_dbl) /\ decl_is mm' (plain_sig "Level" 24 6) 21.
Proof.
  split; [|split; [|split; [|split]]].
  - constructor.
    + split; [split; [reflexivity|]|split].
      * intros q Q. cbn [cab_rx cab_mem mk_mem m_arr]. destruct (String.eqb q "_d") eqn:E; [apply String.eqb_eq in E; contradiction|reflexivity].
      * intros x X. unfold is_byte. repeat destruct X as [<-|X]; try contradiction; lia.
      * vm_compute. discriminate.
    + split; [reflexivity|lia].
    + intros d D. repeat destruct D as [<-|D]; try contradiction; apply has_typeb_ok; vm_compute; reflexivity.
  - intros d D U. repeat destruct D as [<-|D]; try contradiction; try discriminate U; apply has_typeb_ok; vm_compute; reflexivity.
  - intros d D. repeat destruct D as [<-|D]; try contradiction; intros _; vm_compute; discriminate.
  - intros d D. repeat destruct D as [<-|D]; try contradiction; left; vm_compute; discriminate.
  - eexists. split; [vm_compute; reflexivity|]. vm_compute. auto.
Qed.

(** 60 degrees, half a metre above -40; the raw members are not looked at *)
Definition some_dist : dbl := dbl_of_decimal true 395 (-1).
Definition cab_tx : mem := cab_mem (cab_struct 7 60 99 21 some_dist) (repeat 170 4).
Example C56_pack_case : pack_call cab false cabin 4 (repeat 170 4) cab_tx /\ phys_struct cab_tx cabin /\
  phys_of cab_tx cabin (fun d => if String.eqb (sd_name d) "Temp" then 50 else 5) /\
  exists mm', pack_decl cab cabin cab_tx = Ok (mm', Some (VI U32 100)) /\ frame cab mm' [50; 5; 0; 21].
Proof.
  assert (BF : buffer (struct_on cab) = "_d") by (vm_compute; reflexivity). split; [|split; [|split]].
  - constructor.
    + rewrite BF. split; [split; [reflexivity|]|split].
      * intros q Q. cbn [cab_tx cab_mem mk_mem m_arr]. destruct (String.eqb q "_d") eqn:E; [apply String.eqb_eq in E; contradiction|reflexivity].
      * intros x X. apply repeat_spec in X. subst x. unfold is_byte. lia.
      * vm_compute. discriminate.
    + assert (SO : struct_on cab = false) by (vm_compute; reflexivity). rewrite SO. split; eexists; reflexivity.
    + intros d D. repeat destruct D as [<-|D]; try contradiction; apply has_typeb_ok; vm_compute; reflexivity.
    + vm_compute. auto.
    + split; [vm_compute; auto|]. vm_compute. split; [discriminate|reflexivity].
  - intros d D U. repeat destruct D as [<-|D]; try contradiction; try discriminate U; apply has_typeb_ok; vm_compute; reflexivity.
  - intros d D U. repeat destruct D as [<-|D]; try contradiction; try discriminate U; split; [vm_compute; split; congruence| |vm_compute; split; congruence|].
    + split; [intros _; vm_compute; repeat split; congruence|]. eexists. split; reflexivity.
    + split; [vm_compute; congruence|]. exists (VD some_dist). split; [vm_compute; reflexivity|]. eexists _, _. split; [reflexivity|].
      split; [vm_compute; auto|]. split; [vm_compute; reflexivity|]. vm_compute. congruence.
  - eexists. split; [vm_compute; reflexivity|]. vm_compute. auto.
Qed.

Example C56_disjoint_case : disjoint_bits cabin.
Proof. apply disjointb_ok. vm_compute. reflexivity. Qed.
(** no counter, checksum or monitor is switched on in this program *)
Example C56_basic_case : forall bits hash mm, counter_at cab bits cabin mm /\ monitored cab cabin mm /\ computing cab bits cabin hash mm /\ plain_sum cab cabin.
Proof.
  intros bits hash mm. destruct C56_project as (_ & _ & MO & U). destruct (C53_basic cab bits cabin hash mm MO U) as (A & B & C).
  split; [exact A|]. split; [exact B|]. split; [exact C|]. intros d _ (m & s & (J & _) & X & _). destruct (U m J). congruence.
Qed.

(** a negative integer factor: the type is chosen as if the factor were positive; the raw value -128 of a mirrored signal
    has the physical value 128, and the member, an int8_t, shows -128 *)
Definition mirror_sig : sigdecl :=
  {| sd_name := "Mirror"; sd_mark := MarkNone; sd_start := 0; sd_len := 8; sd_order := Intel; sd_signed := true;
     sd_factor := NInt (-1); sd_offset := NInt 0; sd_low := "0"; sd_high := "0"; sd_unit := ""; sd_recs := ["GW"] |}.
Definition mirrored : msgdecl := {| md_id := 7; md_name := "Mirrored"; md_dlc := 1; md_tx := "ECU"; md_sigs := [mirror_sig] |}.
Definition mirror_blocks : list block := [BLine "BU_: ECU GW"; BMsg mirrored].
Definition mirror_db : dbclist := Eval vm_compute in db_of (file_text mirror_blocks).
Definition mirror_files : list (string * string) := Eval vm_compute in files_of "drv" mirror_db.
Definition mirror_h : string := Eval vm_compute in snd (nth 0 mirror_files ("", "")).
Definition mirror_c : string := Eval vm_compute in snd (nth 1 mirror_files ("", "")).
Definition mirror : env := the_env 0 "drv" mirror_db mirror_h mirror_c [on "DRV_USE_SIGFLOAT"] no_user no_calls.
Definition mirror_mem : mem :=
  mk_mem [("dlc_", (LInt U8, VI U8 1)); (member "Mirror_ro", (LInt I8, VI I8 0)); (member "Mirror_phys", (LInt I8, VI I8 0))] "_d" [128].
Lemma mirror_ok : clear_decl mirror_sig.
Proof.
  split; [|split; vm_compute; reflexivity]. constructor; cbn; try (vm_compute; reflexivity); try discriminate.
  - split; [discriminate|reflexivity].
  - vm_compute. auto.
  - vm_compute. auto.
  - split; [discriminate|reflexivity].
  - split; [discriminate|reflexivity].
  - intros x [<-|[]]; split; try discriminate; reflexivity.
Qed.
Theorem C56_negative_refuted : exists bs e md d mm mm', project isort bs e /\ floats_on e = true /\ In md (file_msgs bs) /\ In d (md_sigs md) /\
  (written (sd_factor d) == -1 /\ written (sd_offset d) == 0)%Q /\
  unpack_decl e md mm = Ok (mm', Some (VI U32 (frame_id md))) /\ decl_is mm' d (-128) /\
  (exists m s, In m (d_msgs (e_db e)) /\ In s (g_sigs m) /\ s_namefloat s = phys_name d /\ s_typephys s = I8) /\
  phys_is mm' d (VI I8 (-128)).
Proof.
  exists mirror_blocks, mirror, mirrored, mirror_sig, mirror_mem. eexists. split; [|split; [vm_compute; reflexivity|]].
  - constructor.
    + apply isort_sorts.
    + assert (O : forall l, lacks NL l && negb (String.prefix "BO_ " l) && (negb (mentions "SG_" l) || negb (spaced_colon l)) = true -> other_line l).
      { intros l H. unfold other_line. destruct (lacks NL l), (String.prefix "BO_ " l), (mentions "SG_" l), (spaced_colon l); cbn in H; try discriminate; auto. }
      assert (NN : forall s, negb (String.eqb s "") && all_chars node_char s = true -> node_name s).
      { intros s H. apply andb_true_iff in H as [H1 H2]. split; auto. intros ->. discriminate. }
      intros b B. repeat destruct B as [<-|B]; try contradiction; cbn [block_ok]; try (apply O; vm_compute; reflexivity).
      constructor; cbn [md_id md_name md_dlc md_tx md_sigs mirrored]; [vm_compute; reflexivity|split; [vm_compute; reflexivity|split; [vm_compute; reflexivity|lia]]|apply NN; reflexivity|apply NN; reflexivity|].
      intros s [<-|[]]. apply mirror_ok.
    + intros m [<-|[]]; apply fitsb_ok; vm_compute; reflexivity.
    + apply nodupb_ok. vm_compute. reflexivity.
    + vm_compute. reflexivity.
    + exact (dr_run _ _ _ _ _ (driverb_ok "drv" mirror_db mirror_h mirror_c ltac:(vm_compute; reflexivity))).
    + vm_compute. split; [reflexivity|lia].
    + intros m M. apply entriesb_ok. revert m M. apply forallb_forall. vm_compute. reflexivity.
    + apply nodupb_ok. vm_compute. reflexivity.
    + intros x I. repeat destruct I as [<-|I]; try contradiction; reflexivity.
  - split; [now left|]. split; [now left|]. split; [split; vm_compute; reflexivity|].
    split; [vm_compute; reflexivity|]. split; [vm_compute; reflexivity|]. split; [|vm_compute; reflexivity].
    eexists. eexists. split; [left; reflexivity|]. split; [left; reflexivity|]. split; vm_compute; reflexivity.
Qed.
Print Assumptions C56_negative_refuted.

(** the claim without a lost step is false: the frame 50 3 0 21 is unpacked (Dist: 3 * 0.1 - 40) and packed again from the
    same struct, and the frame is 50 2 0 21 *)
Definition cab_again : mem := cab_mem (cab_struct 0 0 0 0 zero_dbl) [50; 3; 0; 21]%Z.
Theorem C56_exact_refuted : exists bs e md d mm data, project isort bs e /\ floats_on e = true /\ In md (file_msgs bs) /\ convertible (file_msgs bs) md /\
  disjoint_bits md /\ short_signed md /\ In d (md_sigs md) /\ decl_exact d /\ unpack_call false md data 4 mm /\ phys_struct mm md /\
  exists mm' mm'' data'', unpack_decl e md mm = Ok (mm', Some (VI U32 (frame_id md))) /\
    pack_decl e md mm' = Ok (mm'', Some (VI U32 (frame_id md))) /\ frame e mm'' data'' /\ decl_value d data'' <> decl_value d data.
Proof.
  exists cab_blocks, cab, cabin, dist, cab_again, [50; 3; 0; 21]%Z. destruct C56_project as (P & W & _). destruct C56_unpack_case as (_ & _ & SS & EX & _).
  split; [exact P|]. split; [exact W|]. split; [now left|]. split; [apply C56_convertible|]. split; [exact C56_disjoint_case|]. split; [exact SS|].
  split; [right; now left|]. split; [apply EX; right; now left|]. split; [|split].
  - constructor.
    + split; [split; [reflexivity|]|split].
      * intros q Q. cbn [cab_again cab_mem mk_mem m_arr]. destruct (String.eqb q "_d") eqn:E; [apply String.eqb_eq in E; contradiction|reflexivity].
      * intros x X. unfold is_byte. repeat destruct X as [<-|X]; try contradiction; lia.
      * vm_compute. discriminate.
    + split; [reflexivity|lia].
    + intros d D. repeat destruct D as [<-|D]; try contradiction; apply has_typeb_ok; vm_compute; reflexivity.
  - intros d D U. repeat destruct D as [<-|D]; try contradiction; try discriminate U; apply has_typeb_ok; vm_compute; reflexivity.
  - eexists _, _, [50; 2; 0; 21]%Z. split; [vm_compute; reflexivity|]. split; [vm_compute; reflexivity|]. split; [vm_compute; reflexivity|]. vm_compute. discriminate.
Qed.
Print Assumptions C56_exact_refuted.
