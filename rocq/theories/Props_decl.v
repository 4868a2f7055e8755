(** Property C53: from the declarations in a DBC file to the bits that the generated code reads and writes. *)

From Coq Require Import ZArith NArith List String Ascii Bool Lia ZifyBool Permutation.
From Verif Require Import Base Dbl CSyntax CSem CRun Types Formatter Settings MainGen Scanner App LexLemmas PPProof CodecSpec MsgSpec DriverSpec HeaderSpec
  ScanSpec SigSpec NamesSpec CodecEnv Concrete Samples MonSpec MonSamples DeclSpec DeclThms DeclTotal Props_sigline.
Import ListNotations.
Open Scope string_scope.

(** ** C53.  Full claim: for every DBC file, the compiled driver reads every signal from the bits the file declares and writes
    it there.  The theorems follow a file from its text: it is scanned, the driver is generated from the result and compiled
    ([project] in DeclSpec.v), and what the functions do is stated with the declarations alone.

    With a counter or a checksum in the message, Pack sends the incremented counter and the hash of the other bytes.

    Missing: signal conversion (C56), and the layouts that C01 and C03 refute: above 32 bits off a byte border, signed above 32 bits. *)

(** a file of declarations that fit ([declared_file], about the declarations and the driver name alone) is scanned and
    generated without failure, with any options, and is a project in any configuration *)
Theorem C53_program_partial : forall srt drv bs srt2 out date dbc hi low nc ni nf, sorts srt -> declared_file drv bs -> sorts srt2 ->
  match date with Some t => no_nl t = true | None => True end -> no_nl dbc = true -> (0 <= hi < 2 ^ 32)%Z -> (0 <= low < 2 ^ 32)%Z ->
  exists d h c rest, let s := configure drv out (common_info date) (driver_info dbc) hi low nc ni nf in
    scan srt (file_text bs) = Ok d /\ generate_main srt2 d s = Ok ((f_coreh_path (st_f s), h) :: (f_corec_path (st_f s), c) :: rest) /\
    forall fuel conf user calls, locals_free conf ->
      let e := {| e_fuel := fuel; e_drv := drv; e_g := st_g s; e_db := d; e_h := h; e_src := c; e_conf := conf; e_user := user; e_calls := calls |} in
      project srt bs e /\ uncomputed e.
Proof. exact declared_project. Qed.
Print Assumptions C53_program_partial.

(** the same for files with comments, value tables and attributes, if the entries that the scanner makes of them fit into the
    emitted code ([sound_file]) *)
Theorem C53_entries_partial : forall srt drv bs d srt2 out date dbc hi low nc ni nf, sorts srt ->
  scan srt (file_text bs) = Ok d -> sound_file drv bs d -> sorts srt2 ->
  match date with Some t => no_nl t = true | None => True end -> no_nl dbc = true -> (0 <= hi < 2 ^ 32)%Z -> (0 <= low < 2 ^ 32)%Z ->
  exists h c rest, let s := configure drv out (common_info date) (driver_info dbc) hi low nc ni nf in
    generate_main srt2 d s = Ok ((f_coreh_path (st_f s), h) :: (f_corec_path (st_f s), c) :: rest) /\
    forall fuel conf user calls, locals_free conf ->
      project srt bs {| e_fuel := fuel; e_drv := drv; e_g := st_g s; e_db := d; e_h := h; e_src := c; e_conf := conf; e_user := user; e_calls := calls |}.
Proof. exact sound_project. Qed.
Print Assumptions C53_entries_partial.

(** with or without counters, checksums and monitors *)
Theorem C53_unpack_partial : forall srt bs e md bits data dl mm, project srt bs e -> floats_on e = false ->
  In md (file_msgs bs) -> md_sigs md <> [] -> short_signed md -> unpack_call bits md data dl mm -> counter_at e bits md mm -> monitored e md mm ->
  exists mm', unpack_decl e md mm = Ok (mm', Some (VI U32 (frame_id md))) /\
    forall d, In d (md_sigs md) -> decl_exact d -> decl_is mm' d (decl_value d data).
Proof. exact unpack_declared. Qed.
Print Assumptions C53_unpack_partial.

Theorem C53_pack_partial : forall srt bs e md bits mx data hash mm, project srt bs e -> floats_on e = false ->
  In md (file_msgs bs) -> md_sigs md <> [] -> disjoint_bits md -> pack_call e bits md mx data mm -> computing e bits md hash mm ->
  exists mm' data', pack_decl e md mm = Ok (mm', Some (VI U32 (frame_id md))) /\ frame e mm' data' /\
    (forall d z k, In d (md_sigs md) -> ~ counter_decl e md d -> ~ checksum_decl e md d -> decl_is mm d z -> (0 <= k < Z.of_N (sd_len d))%Z ->
       payload_bit data' (decl_pos d k) = Z.testbit z k) /\
    (forall d z k, In d (md_sigs md) -> counter_decl e md d -> ~ checksum_decl e md d -> decl_is mm d z -> (0 <= k < Z.of_N (sd_len d))%Z ->
       payload_bit data' (decl_pos d k) = Z.testbit (z + 1) k) /\
    (forall d, In d (md_sigs md) -> checksum_decl e md d ->
       exists data0, cleared d data' data0 /\
         forall k, (0 <= k < Z.of_N (sd_len d))%Z -> payload_bit data' (decl_pos d k) = Z.testbit (hash data0) k) /\
    (forall p, (0 <= p < 8 * Z.of_N (md_dlc md))%Z -> (forall d, In d (md_sigs md) -> ~ decl_covers d p) -> payload_bit data' p = false).
Proof. exact pack_declared. Qed.
Print Assumptions C53_pack_partial.

(** a frame packed by one program and unpacked by another that was made from the same file, perhaps with other options *)
Theorem C53_roundtrip_partial : forall srt1 srt2 bs e1 e2 md bits1 bits2 mx data hash mm1 mm2 dl data2,
  project srt1 bs e1 -> floats_on e1 = false -> project srt2 bs e2 -> floats_on e2 = false ->
  In md (file_msgs bs) -> md_sigs md <> [] -> disjoint_bits md -> short_signed md ->
  pack_call e1 bits1 md mx data mm1 -> computing e1 bits1 md hash mm1 ->
  unpack_call bits2 md data2 dl mm2 -> counter_at e2 bits2 md mm2 -> monitored e2 md mm2 ->
  exists mm1' data' mm2', pack_decl e1 md mm1 = Ok (mm1', Some (VI U32 (frame_id md))) /\ frame e1 mm1' data' /\
    (firstn (N.to_nat (md_dlc md)) data2 = firstn (N.to_nat (md_dlc md)) data' ->
       unpack_decl e2 md mm2 = Ok (mm2', Some (VI U32 (frame_id md))) /\
       forall d z, In d (md_sigs md) -> decl_exact d -> ~ checksum_decl e1 md d -> decl_is mm1 d z ->
         (~ counter_decl e1 md d -> decl_carries d z -> decl_is mm2' d z) /\
         (counter_decl e1 md d -> sd_signed d = false -> decl_is mm2' d ((z + 1) mod 2 ^ Z.of_N (sd_len d)))).
Proof. exact sent_and_received. Qed.
Print Assumptions C53_roundtrip_partial.

(** the last conditions hold in every program without counters, checksums and monitors *)
Theorem C53_basic : forall e bits md hash mm, monitors_on e = false -> uncomputed e ->
  counter_at e bits md mm /\ monitored e md mm /\ computing e bits md hash mm.
Proof. exact basic_parts. Qed.
Print Assumptions C53_basic.

(** ** C51, reading succeeds: lengths up to 62 (signed: 63) and numbers that stay inside int64_t.  Comments and other lines may
    be there, without runs of 20 digits. *)
Theorem C51_accepted_partial : forall srt bs, (forall b, In b bs -> block_ok b /\ sized_block b) ->
  (forall m d, In m (file_msgs bs) -> In d (md_sigs m) -> (1 <= sd_len d)%N) -> exists db, scan srt (file_text bs) = Ok db.
Proof. exact file_scans. Qed.
Print Assumptions C51_accepted_partial.

(** ** A file *)

Definition speed : sigdecl :=
  {| sd_name := "Speed"; sd_mark := MarkNone; sd_start := 23; sd_len := 12; sd_order := Motorola; sd_signed := true;
     sd_factor := NDec false "0" "25" None; sd_offset := NInt (-40); sd_low := "-1.5E+3"; sd_high := "2"; sd_unit := "km/h"; sd_recs := ["GW"; "Dash_2"] |}.
Definition engine_decl : msgdecl :=
  {| md_id := 2147483939; md_name := "Engine"; md_dlc := 8; md_tx := "ECU";
     md_sigs := [speed; plain_sig "Torque" 33 6; plain_sig "Wide" 0 16] |}.
Definition last_decl : msgdecl := {| md_id := 6; md_name := "Last"; md_dlc := 2; md_tx := "GW"; md_sigs := [plain_sig "B" 8 8; plain_sig "A" 0 8] |}.
Definition two_blocks : list block :=
  [BLine ("VERSION " ++ dq ++ "3.1" ++ dq); BLine "BU_: ECU GW Dash_2"; BLine ""; BMsg engine_decl; BLine ""; BMsg last_decl].
Definition two_db : dbclist := Eval vm_compute in db_of (file_text two_blocks).
Definition two_files : list (string * string) := Eval vm_compute in files_of "drv" two_db.
Definition two_h : string := Eval vm_compute in snd (nth 0 two_files ("", "")).
Definition two_c : string := Eval vm_compute in snd (nth 1 two_files ("", "")).
Definition two : env := the_env 0 "drv" two_db two_h two_c [] no_user no_calls.

Lemma decl_size_filter : forall f l, (decl_size (filter f l) <= decl_size l /\ 0 <= decl_size l)%Z.
Proof. induction l as [|x l IH]; cbn [filter decl_size]; [lia|]. destruct (f x); cbn [decl_size]; lia. Qed.
Definition fitsb (m : msgdecl) : bool :=
  is_ident (md_name m) && (String.length (md_name m) <=? 1000)%nat &&
  forallb (fun d => is_ident (sd_name d) && (String.length (sd_name d) <=? 900)%nat && (1 <=? sd_len d)%N && (sd_len d <=? 64)%N &&
    (String.length (sd_unit d) <=? 1000)%nat && in_frameb (sd_order d) (Z.of_N (sd_start d)) (Z.of_N (sd_len d)) (Z.of_N (md_dlc m))) (md_sigs m) &&
  nodupb (flat_map members_of (md_sigs m)) && (decl_size (md_sigs m) <=? 9600)%Z.
Lemma fitsb_ok : forall m, fitsb m = true -> fits m.
Proof.
  intros m H. unfold fitsb in H. splitb H. natb. rewrite forallb_forall in H2.
  constructor; auto; try (intros d I; specialize (H2 d I); cbv beta in H2; splitb H2; natb).
  - auto.
  - split; now apply N.leb_le.
  - intros d k I K. specialize (H2 d I). cbv beta in H2. splitb H2. exact (in_frameb_ok _ _ _ _ H4 k K).
  - auto.
  - now apply nodupb_ok.
  - intros i. destruct (decl_size_filter (decl_in_byte i) (md_sigs m)). lia.
Qed.

Definition entriesb (m : message) : bool :=
  forallb (fun s => forallb (fun p => all_chars is_idchar (fst p) && (String.length (fst p) <=? 1000)%nat) (s_valdefs s)) (g_sigs m) &&
  match roll_sig m with Some s => (s_len s <? 31)%Z && negb (existsb (String.eqb (s_name s ++ "_expt")) (member_names m)) | None => true end &&
  match csm_sig m with
  | Some s => is_ident (g_csmmethod m) && negb (is_typename (g_csmmethod m)) && (String.length (g_csmmethod m) <=? 1000)%nat &&
      (0 <=? g_csmop m)%Z && (g_csmop m <? 2 ^ 31)%Z && in_frameb (s_order s) (s_start s) (s_len s) 8
  | None => true
  end.
Lemma entriesb_ok : forall m, entriesb m = true -> entries_ok m.
Proof.
  intros m H. unfold entriesb in H. splitb H. constructor.
  - intros s t v I J. rewrite forallb_forall in H. specialize (H s I). cbv beta in H. rewrite forallb_forall in H. specialize (H (t, v) J). cbn [fst] in H.
    splitb H. natb. auto.
  - intros s X. rewrite X in H1. splitb H1. split; [lia|]. intros I. apply negb_true_iff in H2.
    assert (Y : existsb (String.eqb (s_name s ++ "_expt")) (member_names m) = true); [|congruence]. apply existsb_exists. eexists. split; [exact I|apply String.eqb_refl].
  - intros s X. rewrite X in H0. splitb H0. natb. apply negb_true_iff in H6. split; [exact H0|]. split; [exact H6|]. split; [exact H5|]. split; [lia|]. now apply in_frameb_ok.
Qed.

Lemma speed_ok : clear_decl speed.
Proof.
  split; [|split; vm_compute; reflexivity]. constructor; cbn; try (vm_compute; reflexivity); try discriminate.
  - split; [discriminate|reflexivity].
  - split; (split; [discriminate|reflexivity]).
  - vm_compute. auto.
  - split; [discriminate|reflexivity].
  - split; [discriminate|reflexivity].
  - intros x [<-|[<-|[]]]; split; try discriminate; reflexivity.
Qed.
Example C53_project : project isort two_blocks two /\ basic two.
Proof.
  split; [|split; [vm_compute; reflexivity|split; [vm_compute; reflexivity|]]; intros m [<-|[<-|[]]]; split; vm_compute; reflexivity]. constructor.
  - apply isort_sorts.
  - assert (O : forall l, lacks NL l && negb (String.prefix "BO_ " l) && (negb (mentions "SG_" l) || negb (spaced_colon l)) = true -> other_line l).
    { intros l H. unfold other_line. destruct (lacks NL l), (String.prefix "BO_ " l), (mentions "SG_" l), (spaced_colon l); cbn in H; try discriminate; auto. }
    assert (NN : forall s, negb (String.eqb s "") && all_chars node_char s = true -> node_name s).
    { intros s H. apply andb_true_iff in H as [H1 H2]. split; auto. intros ->. discriminate. }
    intros b B. repeat destruct B as [<-|B]; try contradiction; cbn [block_ok]; try (apply O; vm_compute; reflexivity);
      (constructor; cbn [md_id md_name md_dlc md_tx md_sigs engine_decl last_decl]; [vm_compute; reflexivity|split; [vm_compute; reflexivity|split; [vm_compute; reflexivity|lia]]|apply NN; reflexivity|apply NN; reflexivity|]).
    + intros s [<-|[<-|[<-|[]]]]; [apply speed_ok| |]; (apply plain_ok; [apply NN; reflexivity|vm_compute; reflexivity|vm_compute; reflexivity]).
    + intros s [<-|[<-|[]]]; (apply plain_ok; [apply NN; reflexivity|vm_compute; reflexivity|vm_compute; reflexivity]).
  - intros m [<-|[<-|[]]]; apply fitsb_ok; vm_compute; reflexivity.
  - apply nodupb_ok. vm_compute. reflexivity.
  - vm_compute. reflexivity.
  - exact (dr_run _ _ _ _ _ (driverb_ok "drv" two_db two_h two_c ltac:(vm_compute; reflexivity))).
  - vm_compute. split; [reflexivity|lia].
  - intros m M. apply entriesb_ok. revert m M. apply forallb_forall. vm_compute. reflexivity.
  - apply nodupb_ok. vm_compute. reflexivity.
  - intros x _. reflexivity.
Qed.

Lemma unscaled_sized : forall d, sd_factor d = NInt 1 -> sd_offset d = NInt 0 -> (sd_len d <= 62)%N -> sized_decl d.
Proof.
  intros d F O L. constructor.
  - destruct (sd_signed d); lia.
  - rewrite F, O. exists 0%Z. split; [reflexivity|unfold int64; lia].
  - rewrite F, O. intros f o [= <-] [= <-]. assert (2 ^ Z.of_N (sd_len d) <= 2 ^ 62)%Z by (apply Z.pow_le_mono_r; lia). lia.
Qed.
Example C53_program_case : declared_file "drv" two_blocks.
Proof.
  destruct C53_project as [P _]. constructor; [|apply P|apply P|apply P|apply nodupb_ok; vm_compute; reflexivity].
  intros b B. pose proof (pj_blocks _ _ _ P b B) as A1. split; [exact A1|].
  split; [clear - B; repeat destruct B as [<-|B]; try contradiction; cbn [silent_block]; auto|].
  repeat destruct B as [<-|B]; try contradiction; cbn [sized_block]; try reflexivity.
  - intros d [<-|[<-|[<-|[]]]]; [|apply unscaled_sized; cbn; auto; lia|apply unscaled_sized; cbn; auto; lia].
    constructor; [vm_compute; discriminate| |discriminate]. exists (-160)%Z. split; [vm_compute; reflexivity|unfold int64; lia].
  - intros d [<-|[<-|[]]]; apply unscaled_sized; cbn; auto; lia.
Qed.

(** the file with comments, a value table, a cycle time and a counter *)
Definition beat_decl : msgdecl := {| md_id := 7; md_name := "Beat"; md_dlc := 3; md_tx := "ECU";
  md_sigs := [plain_sig "Cnt" 8 4; plain_sig "State" 0 8; plain_sig "Sum" 16 8] |}.
Definition more_blocks : list block := (two_blocks ++
  [BMsg beat_decl; BLine ""; BLine ("CM_ BO_ 6 " ++ dq ++ "the last one" ++ dq ++ ";"); BLine ("CM_ SG_ 2147483939 Torque " ++ dq ++ "in Nm" ++ dq ++ ";");
   BLine ("CM_ SG_ 7 Cnt " ++ dq ++ "<RollingCounter>" ++ dq ++ ";");
   BLine ("CM_ SG_ 7 Sum " ++ dq ++ "<Checksum:XOR8:3>" ++ dq ++ ";"); BLine ("BA_ " ++ dq ++ "GenMsgCycleTime" ++ dq ++ " BO_ 6 100;");
   BLine ("VAL_ 7 State 0 " ++ dq ++ "Off" ++ dq ++ " 1 " ++ dq ++ "On" ++ dq ++ " ;")])%list.
Definition more_db : dbclist := Eval vm_compute in db_of (file_text more_blocks).
Example C53_entries_case : scan isort (file_text more_blocks) = Ok more_db /\ sound_file "drv" more_blocks more_db /\
  (exists m s t, In m (d_msgs more_db) /\ g_name m = "Beat" /\ roll_sig m = Some s /\ s_name s = "Cnt" /\ csm_sig m = Some t /\ s_name t = "Sum") /\
  (exists m, In m (d_msgs more_db) /\ g_name m = "Last" /\ g_cycle m = 100%Z /\ g_comment m = "the last one") /\
  In "State_Beat_Off" (header_names "DRV" more_db).
Proof.
  split; [vm_compute; reflexivity|]. split; [|split; [|split]].
  - constructor.
    + assert (O : forall l, lacks NL l && negb (String.prefix "BO_ " l) && (negb (mentions "SG_" l) || negb (spaced_colon l)) && digit_runs 0 l = true ->
        block_ok (BLine l) /\ sized_block (BLine l)).
      { intros l H. cbn [block_ok sized_block]. unfold other_line. destruct (lacks NL l), (String.prefix "BO_ " l), (mentions "SG_" l), (spaced_colon l); cbn in H; try discriminate; auto. }
      assert (NN : forall s, negb (String.eqb s "") && all_chars node_char s = true -> node_name s).
      { intros s H. apply andb_true_iff in H as [H1 H2]. split; auto. intros ->. discriminate. }
      intros b B. apply in_app_or in B as [B|B]; [split; apply (df_blocks _ _ C53_program_case b B)|].
      repeat destruct B as [<-|B]; try contradiction; try (apply O; vm_compute; reflexivity). split.
      * constructor; cbn [md_id md_name md_dlc md_tx md_sigs beat_decl]; [vm_compute; reflexivity|split; [vm_compute; reflexivity|split; [vm_compute; reflexivity|lia]]|apply NN; reflexivity|apply NN; reflexivity|].
        intros s [<-|[<-|[<-|[]]]]; (apply plain_ok; [apply NN; reflexivity|vm_compute; reflexivity|vm_compute; reflexivity]).
      * intros d [<-|[<-|[<-|[]]]]; apply unscaled_sized; cbn; auto; lia.
    + intros m [<-|[<-|[<-|[]]]]; apply fitsb_ok; vm_compute; reflexivity.
    + apply nodupb_ok. vm_compute. reflexivity.
    + vm_compute. split; [reflexivity|lia].
    + intros m M. split; [apply entriesb_ok; revert m M; apply forallb_forall; vm_compute; reflexivity|].
      intros rs. repeat destruct M as [<-|M]; try contradiction; vm_compute; intros [= <-]; vm_compute; lia.
    + apply nodupb_ok. vm_compute. reflexivity.
  - destruct (nth_error (d_msgs more_db) 2) as [m|] eqn:E; [|discriminate E]. pose proof (nth_error_In _ _ E) as I. vm_compute in E.
    injection E as E. exists m. do 2 eexists. split; [exact I|]. subst m. split; [reflexivity|]. split; [vm_compute; reflexivity|]. split; [reflexivity|]. split; [vm_compute; reflexivity|reflexivity].
  - destruct (nth_error (d_msgs more_db) 1) as [m|] eqn:E; [|discriminate E]. pose proof (nth_error_In _ _ E) as I. vm_compute in E.
    injection E as E. exists m. split; [exact I|]. subst m. repeat split.
  - vm_compute. auto 20.
Qed.

(** ** A call of each function *)

Definition two_bytes : list Z := [52; 18; 255; 59; 42; 0; 0; 0]%Z.
Definition decl_members (bits : bool) (m : msgdecl) (vals : list (string * Z)) : list (string * (lty * cval)) :=
  map (fun d => (member (field_name d), (field_object bits d, obj (field_object bits d) (match lookup (field_name d) vals with Some z => z | None => 0%Z end)))) (md_sigs m).
Definition two_rx : mem := mk_mem (dlc_obj 8 :: decl_members true engine_decl []) "_d" two_bytes.
Definition two_tx : mem :=
  mk_mem (("*_len", (LInt U8, VI U8 0)) :: ("*_ide", (LInt U8, VI U8 0)) :: decl_members true engine_decl [("Speed_ro", (-5)%Z); ("Torque", 21%Z); ("Wide", 4660%Z)])%list "_d" (repeat 170%Z 8).
Example C53_unpack_case : unpack_call true engine_decl two_bytes 8 two_rx /\ short_signed engine_decl /\
  (forall d, In d (md_sigs engine_decl) -> decl_exact d) /\
  exists mm', unpack_decl two engine_decl two_rx = Ok (mm', Some (VI U32 291)) /\
    decl_is mm' speed (-13) /\ decl_is mm' (plain_sig "Torque" 33 6) 21 /\ decl_is mm' (plain_sig "Wide" 0 16) 4660.
Proof.
  split; [|split; [|split]].
  - constructor.
    + split; [split; [reflexivity|]|split].
      * intros q Q. cbn [two_rx mk_mem m_arr]. destruct (String.eqb q "_d") eqn:E; [apply String.eqb_eq in E; contradiction|reflexivity].
      * intros x X. unfold is_byte. repeat destruct X as [<-|X]; try contradiction; lia.
      * vm_compute. discriminate.
    + split; [reflexivity|lia].
    + intros d D. repeat destruct D as [<-|D]; try contradiction; apply has_typeb_ok; vm_compute; reflexivity.
  - intros d D. repeat destruct D as [<-|D]; try contradiction; intros _; vm_compute; discriminate.
  - intros d D. repeat destruct D as [<-|D]; try contradiction; left; vm_compute; discriminate.
  - eexists. split; [vm_compute; reflexivity|]. vm_compute. auto.
Qed.
Definition positions (d : sigdecl) : list Z := map (fun k => decl_pos d (Z.of_nat k)) (seq 0 (N.to_nat (sd_len d))).
Definition disjointb (m : msgdecl) : bool :=
  forallb (fun x => forallb (fun y => String.eqb (field_name x) (field_name y) || negb (existsb (fun p => existsb (Z.eqb p) (positions y)) (positions x))) (md_sigs m)) (md_sigs m).
Lemma disjointb_ok : forall m, disjointb m = true -> disjoint_bits m.
Proof.
  intros m X a b p A B (i & I & <-) (j & J & E).
  assert (L : forall d k, (0 <= k < Z.of_N (sd_len d))%Z -> In (decl_pos d k) (positions d)).
  { intros d k K. apply in_map_iff. exists (Z.to_nat k). rewrite Z2Nat.id by lia. split; [reflexivity|]. apply in_seq. lia. }
  pose proof (L a i I) as P1. pose proof (L b j J) as P2. rewrite E in P2. unfold disjointb in X.
  rewrite forallb_forall in X. specialize (X a A). cbv beta in X. rewrite forallb_forall in X. specialize (X b B). apply orb_true_iff in X as [X|X]; [now apply String.eqb_eq|].
  apply negb_true_iff in X. assert (Y : existsb (fun p => existsb (Z.eqb p) (positions b)) (positions a) = true); [|congruence].
  apply existsb_exists. exists (decl_pos a i). split; [exact P1|]. apply existsb_exists. exists (decl_pos a i). split; [exact P2|]. apply Z.eqb_refl.
Qed.
Example C53_pack_case : pack_call two true engine_decl 8 (repeat 170%Z 8) two_tx /\ disjoint_bits engine_decl /\
  exists mm', pack_decl two engine_decl two_tx = Ok (mm', Some (VI U32 291)) /\ frame two mm' [52; 18; 255; 176; 42; 0; 0; 0]%Z.
Proof.
  assert (BF : buffer (struct_on two) = "_d") by (vm_compute; reflexivity). split; [|split].
  - constructor.
    + rewrite BF. split; [split; [reflexivity|]|split].
      * intros q Q. cbn [two_tx mk_mem m_arr]. destruct (String.eqb q "_d") eqn:E; [apply String.eqb_eq in E; contradiction|reflexivity].
      * intros x X. apply repeat_spec in X. subst x. unfold is_byte. lia.
      * vm_compute. discriminate.
    + assert (SO : struct_on two = false) by (vm_compute; reflexivity). rewrite SO. split; eexists; reflexivity.
    + intros d D. repeat destruct D as [<-|D]; try contradiction; apply has_typeb_ok; vm_compute; reflexivity.
    + vm_compute. auto.
    + split; [vm_compute; auto|]. vm_compute. split; [discriminate|reflexivity].
  - apply disjointb_ok. vm_compute. reflexivity.
  - eexists. split; [vm_compute; reflexivity|]. vm_compute. auto.
Qed.

(** the comment of a signal is taken for a signal line when it has a colon between blanks and seven words behind it, and the
    conversion of the words to numbers is undefined *)
Theorem C51_comment_refuted : exists bs text, (forall b, In b bs -> block_ok b /\ sized_block b) /\
  (exists db, scan isort (file_text bs) = Ok db) /\
  text = "pump : off when the engine is not running" /\
  exists why, scan isort (file_text (bs ++ [BLine ("CM_ SG_ 6 A " ++ dq ++ text ++ dq ++ ";")])) = UB why.
Proof.
  exists two_blocks. eexists. split; [|split; [|split; [reflexivity|]]].
  - intros b B. destruct (df_blocks _ _ C53_program_case b B) as (X & _ & Y). auto.
  - eexists. vm_compute. reflexivity.
  - eexists. vm_compute. reflexivity.
Qed.
Print Assumptions C51_comment_refuted.

(** a program with counter, checksum and monitors *)
Definition more_files : list (string * string) := Eval vm_compute in files_of "drv" more_db.
Definition more_h : string := Eval vm_compute in snd (nth 0 more_files ("", "")).
Definition more_c : string := Eval vm_compute in snd (nth 1 more_files ("", "")).
Definition more_sum (d : list Z) : Z := (fold_right Z.lxor 3 (firstn 3 d))%Z.
Definition beat : message := Eval vm_compute in nth 2 (d_msgs more_db) status.
Definition more : env := app_env more_db more_h more_c "FMon_Beat_drv" 10 more_sum.

Example C53_more : project isort more_blocks more /\ floats_on more = false /\ monitors_on more = true /\
  counter_decl more beat_decl (plain_sig "Cnt" 8 4) /\ checksum_decl more beat_decl (plain_sig "Sum" 16 8).
Proof.
  destruct C53_entries_case as (SC & SF & _). split; [|split; [vm_compute; reflexivity|split; [vm_compute; reflexivity|]]].
  - constructor.
    + apply isort_sorts.
    + intros b B. now apply (sf_blocks _ _ _ SF).
    + apply SF.
    + apply SF.
    + exact SC.
    + exact (dr_run _ _ _ _ _ (driverb_ok "drv" more_db more_h more_c ltac:(vm_compute; reflexivity))).
    + apply SF.
    + intros m M. now apply (sf_entries _ _ _ SF).
    + apply SF.
    + intros x I. repeat destruct I as [<-|I]; try contradiction; reflexivity.
  - assert (B : becomes more beat_decl beat) by (split; [right; right; left; reflexivity|reflexivity]).
    split; exists beat; eexists; (split; [exact B|]); (split; [vm_compute; reflexivity|reflexivity]).
Qed.

Definition beat_rx : mem := mk_mem (monitor_of 0 0 0 ++ decl_members true beat_decl [] ++ [(member "Cnt_expt", (field_object true (plain_sig "Cnt" 8 4), obj (field_object true (plain_sig "Cnt" 8 4)) 3))])%list "_d" [].
Lemma beat_only : forall m, becomes more beat_decl m -> m = beat.
Proof. intros m (I & N). change (d_msgs (e_db more)) with (d_msgs more_db) in I. repeat destruct I as [<-|I]; try contradiction; try (vm_compute in N; discriminate N). vm_compute. reflexivity. Qed.
Example C53_monitored_case : let mm := deliver [65; 3; 0]%Z 3 beat_rx in
  unpack_call true beat_decl [65; 3; 0]%Z 3 mm /\ counter_at more true beat_decl mm /\ monitored more beat_decl mm /\
  exists mm', unpack_decl more beat_decl mm = Ok (mm', Some (VI U32 7)) /\ decl_is mm' (plain_sig "Cnt" 8 4) 3 /\ decl_is mm' (plain_sig "State" 0 8) 65 /\
    int_at mm' (mon_path "frame_cnt") = Some 1%Z /\ int_at mm' (mon_path "csm_error") = Some 1%Z.
Proof.
  cbv zeta. set (mm := deliver [65; 3; 0]%Z 3 beat_rx).
  assert (P : program more) by (eapply pj_program; apply C53_more).
  assert (R : receives more beat true [65; 3; 0]%Z 3 10 more_sum no_hook no_phys mm)
    by (apply (app_receives more_db more_h more_c 10 more_sum beat); [exact P|right; right; left; reflexivity|vm_compute; reflexivity]).
  split; [|split; [|split]].
  - constructor.
    + destruct (rc_data _ _ _ _ _ _ _ _ _ _ R) as (A & B & C). split; [exact A|]. split; [exact B|exact C].
    + apply R.
    + intros d D. repeat destruct D as [<-|D]; try contradiction; apply has_typeb_ok; vm_compute; reflexivity.
  - intros d D (m & s & B & C & E). rewrite (beat_only m B) in C. vm_compute in C. injection C as <-.
    repeat destruct D as [<-|D]; try contradiction; vm_compute in E; try discriminate E. apply has_typeb_ok. vm_compute. reflexivity.
  - intros X m B. rewrite (beat_only m B). exists 10%Z, more_sum, no_hook. now apply R.
  - eexists. split; [vm_compute; reflexivity|]. vm_compute. auto.
Qed.

Definition beat_tx : mem := mk_mem (("*_len", (LInt U8, VI U8 0)) :: ("*_ide", (LInt U8, VI U8 0)) ::
  decl_members true beat_decl [("Cnt", 15%Z); ("State", 65%Z); ("Sum", 99%Z)] ++ [(member "Cnt_expt", (field_object true (plain_sig "Cnt" 8 4), obj (field_object true (plain_sig "Cnt" 8 4)) 3))])%list "_d" (repeat 170%Z 3).
Definition more_tx : env := app_env more_db more_h more_c "" 0 more_sum.
Example C53_computing_case : let mm := prepare (repeat 170%Z 3) [] beat_tx in
  pack_call more_tx true beat_decl 8 (repeat 170%Z 3) mm /\ computing more_tx true beat_decl more_sum mm /\ disjoint_bits beat_decl /\
  exists mm', pack_decl more_tx beat_decl mm = Ok (mm', Some (VI U32 7)) /\ frame more_tx mm' [65; 0; 66]%Z.
Proof.
  cbv zeta. set (mm := prepare (repeat 170%Z 3) [] beat_tx).
  assert (PJ : project isort more_blocks more_tx).
  { destruct C53_more as (P & _). constructor; try apply P. }
  assert (P : program more_tx) by (eapply pj_program; exact PJ).
  assert (S : sends more_tx beat true 0 8 (repeat 170%Z 3) no_raw more_sum mm)
    by (apply (app_sends more_db more_h more_c more_sum beat); [exact P|right; right; left; reflexivity|vm_compute; auto|vm_compute; auto|vm_compute; reflexivity]).
  assert (O : forall m, becomes more_tx beat_decl m -> m = beat) by exact beat_only.
  split; [|split; [|split]].
  - assert (SO : struct_on more_tx = false) by (vm_compute; reflexivity). constructor.
    + destruct (sn_data _ _ _ _ _ _ _ _ _ S) as (A & B & C). split; [exact A|]. split; [exact B|exact C].
    + rewrite SO. split; eexists; reflexivity.
    + intros d D. repeat destruct D as [<-|D]; try contradiction; apply has_typeb_ok; vm_compute; reflexivity.
    + vm_compute. auto.
    + split; [vm_compute; auto|]. vm_compute. split; [discriminate|reflexivity].
  - constructor.
    + intros d D (m & s & B & C & E). rewrite (O m B) in C. vm_compute in C. injection C as <-.
      repeat destruct D as [<-|D]; try contradiction; vm_compute in E; try discriminate E. apply has_typeb_ok. vm_compute. reflexivity.
    + intros d z D (m & s & B & C & E). rewrite (O m B) in C. vm_compute in C. injection C as <-.
      repeat destruct D as [<-|D]; try contradiction; vm_compute in E; try discriminate E. intros Z. vm_compute in Z. injection Z as <-. vm_compute. split; [discriminate|reflexivity].
    + intros d k D (m & s & B & C & E) K. rewrite (O m B) in C. vm_compute in C. injection C as <-.
      repeat destruct D as [<-|D]; try contradiction; vm_compute in E; try discriminate E.
      change (0 <= k < 8)%Z in K. change ((16 + k) / 8 = 2)%Z. symmetry. apply (Z.div_unique _ 8 2 k); lia.
    + intros m B X. rewrite (O m B) in *. now apply S.
  - apply disjointb_ok. vm_compute. reflexivity.
  - eexists. split; [vm_compute; reflexivity|]. vm_compute. auto.
Qed.

(** signals of more than 32 bits that do not end at a byte border, as in C01: here four bits are lost *)
Definition wide_sig : sigdecl :=
  {| sd_name := "Wide"; sd_mark := MarkNone; sd_start := 4; sd_len := 40; sd_order := Intel; sd_signed := false;
     sd_factor := NInt 1; sd_offset := NInt 0; sd_low := "0"; sd_high := "0"; sd_unit := ""; sd_recs := ["GW"] |}.
Definition widened : msgdecl := {| md_id := 7; md_name := "Widened"; md_dlc := 6; md_tx := "ECU"; md_sigs := [wide_sig] |}.
Definition wide_blocks : list block := [BLine "BU_: ECU GW"; BMsg widened].
Definition wide_db : dbclist := Eval vm_compute in db_of (file_text wide_blocks).
Definition wide_files : list (string * string) := Eval vm_compute in files_of "drv" wide_db.
Definition wide_h : string := Eval vm_compute in snd (nth 0 wide_files ("", "")).
Definition wide_c : string := Eval vm_compute in snd (nth 1 wide_files ("", "")).
Definition wide : env := the_env 0 "drv" wide_db wide_h wide_c [] no_user no_calls.
Definition wide_data : list Z := repeat 255%Z 6.
Definition wide_mem : mem := mk_mem [("dlc_", (LInt U8, VI U8 6)); (member "Wide", (LInt U64, VI U64 0))] "_d" wide_data.
Lemma wide_ok : clear_decl wide_sig.
Proof.
  split; [|split; vm_compute; reflexivity]. constructor; cbn; try (vm_compute; reflexivity); try discriminate.
  - split; [discriminate|reflexivity].
  - vm_compute. auto.
  - vm_compute. auto.
  - split; [discriminate|reflexivity].
  - split; [discriminate|reflexivity].
  - intros x [<-|[]]; split; try discriminate; reflexivity.
Qed.
Theorem C53_wide_refuted : exists bs e md d data mm mm' z, project isort bs e /\ basic e /\ In md (file_msgs bs) /\ In d (md_sigs md) /\
  unpack_call false md data 6 mm /\ unpack_decl e md mm = Ok (mm', Some (VI U32 (frame_id md))) /\ decl_is mm' d z /\
  decl_value d data = (2 ^ 40 - 1)%Z /\ z = (2 ^ 40 - 1 - 15 * 2 ^ 32)%Z.
Proof.
  exists wide_blocks, wide, widened, wide_sig, wide_data, wide_mem. eexists. eexists. split; [|split; [|split; [now left|split; [now left|split]]]].
  - constructor.
    + apply isort_sorts.
    + assert (O : forall l, lacks NL l && negb (String.prefix "BO_ " l) && (negb (mentions "SG_" l) || negb (spaced_colon l)) = true -> other_line l).
      { intros l H. unfold other_line. destruct (lacks NL l), (String.prefix "BO_ " l), (mentions "SG_" l), (spaced_colon l); cbn in H; try discriminate; auto. }
      assert (NN : forall s, negb (String.eqb s "") && all_chars node_char s = true -> node_name s).
      { intros s H. apply andb_true_iff in H as [H1 H2]. split; auto. intros ->. discriminate. }
      intros b B. repeat destruct B as [<-|B]; try contradiction; cbn [block_ok]; try (apply O; vm_compute; reflexivity).
      constructor; cbn [md_id md_name md_dlc md_tx md_sigs widened]; [vm_compute; reflexivity|split; [vm_compute; reflexivity|split; [vm_compute; reflexivity|lia]]|apply NN; reflexivity|apply NN; reflexivity|].
      intros s [<-|[]]. apply wide_ok.
    + intros m [<-|[]]; apply fitsb_ok; vm_compute; reflexivity.
    + apply nodupb_ok. vm_compute. reflexivity.
    + vm_compute. reflexivity.
    + exact (dr_run _ _ _ _ _ (driverb_ok "drv" wide_db wide_h wide_c ltac:(vm_compute; reflexivity))).
    + vm_compute. split; [reflexivity|lia].
    + intros m M. apply entriesb_ok. revert m M. apply forallb_forall. vm_compute. reflexivity.
    + apply nodupb_ok. vm_compute. reflexivity.
    + intros x I. repeat destruct I as [<-|I]; try contradiction; reflexivity.
  - split; [vm_compute; reflexivity|]. split; [vm_compute; reflexivity|]. intros m I. repeat destruct I as [<-|I]; try contradiction. split; vm_compute; reflexivity.
  - constructor.
    + split; [split; [reflexivity|]|split].
      * intros q Q. cbn [wide_mem mk_mem m_arr]. destruct (String.eqb q "_d") eqn:E; [apply String.eqb_eq in E; contradiction|reflexivity].
      * intros x X. apply repeat_spec in X. subst x. unfold is_byte. lia.
      * vm_compute. discriminate.
    + split; [reflexivity|lia].
    + intros d D. repeat destruct D as [<-|D]; try contradiction; apply has_typeb_ok; vm_compute; reflexivity.
  - split; [vm_compute; reflexivity|]. split; [vm_compute; reflexivity|]. split; vm_compute; reflexivity.
Qed.
Print Assumptions C53_wide_refuted.
