(** Property C60: whole runs of the tool, from the DBC file in the file system to the programs in the output directory. *)

From Coq Require Import ZArith NArith List String Ascii Bool Lia ZifyBool Permutation Sorted.
From Verif Require Import Base Dbl CSyntax CSem CRun Types Formatter Settings MainGen UtilGen LineParser Scanner Options FsModel App LexLemmas PPProof CodecSpec MsgSpec DriverSpec HeaderSpec
  StructSpec ScanSpec ScanPass1 SigSpec NamesSpec CodecEnv CodecThms Concrete Samples MonSamples FsSpec UtilSpec UtilThms DeclSpec DeclThms PhysSpec PhysDecl RecvSpec RecvDecl RunSpec RunThms
  Props_sigline Props_fs Props_util Props_decl Props_recv.
Import ListNotations.
Open Scope string_scope.

(** ** C60.  Full claim: after a run of the tool on any DBC file, the output directory has the driver for the file and the utilities
    of the driver or of every node, and the compiled programs do what the other theorems say about them.

    False when the names of two nodes differ in the case of their letters only (C60_case_refuted): their files have the same
    names, and the last node's files are left.  Missing: what C53 and C59 miss. *)

(** the header and the source of the driver *)
Theorem C60_driver_partial : forall srt now argv bs f f' d, orders srt -> tool_run srt now argv bs f f' -> scan srt (file_text bs) = Ok d ->
  let o := get_options argv in let drv := fst (o_drv o) in sound_file drv bs d ->
  exists h c, holds o f' "lib" (str_tolower drv ++ ".h") h /\ holds o f' "lib" (str_tolower drv ++ ".c") c /\
    forall e, made_of o now d h c e -> project srt bs e.
Proof. exact driver_left. Qed.
Print Assumptions C60_driver_partial.

(** the utilities, for each node or for the driver *)
Theorem C60_utilities_partial : forall srt now argv bs f f' d, orders srt -> tool_run srt now argv bs f f' -> scan srt (file_text bs) = Ok d ->
  let o := get_options argv in let drv := fst (o_drv o) in
  forall who e h c, wanted o d who -> made_of o now d h c e -> project srt bs e ->
  exists hu cu, holds o f' "butl" (util_name drv who ++ "-binutil.h") hu /\ holds o f' "butl" (util_name drv who ++ "-binutil.c") cu /\ companion e who hu cu.
Proof. exact utilities_left. Qed.
Print Assumptions C60_utilities_partial.

(** a declared receiver is a node for which files are made *)
Theorem C60_receivers : forall srt bs e n md, project srt bs e -> In md (file_msgs bs) -> declared_for (Some n) md -> is_node (e_db e) n.
Proof. exact declared_node. Qed.
Print Assumptions C60_receivers.

(** all the files of a run belong together *)
Theorem C60_programs_partial : forall srt now argv bs f f' d who, orders srt -> tool_run srt now argv bs f f' -> scan srt (file_text bs) = Ok d ->
  let o := get_options argv in let drv := fst (o_drv o) in sound_file drv bs d -> wanted o d who ->
  exists h c hu cu, left_files o f' who h c hu cu /\ forall e, made_of o now d h c e -> project srt bs e /\ companion e who hu cu.
Proof. exact run_programs. Qed.
Print Assumptions C60_programs_partial.

(** together with C59: frames arrive in the receive structs of the programs that the run leaves *)
Theorem C60_delivers_partial : forall srt now argv bs f f' d who, orders srt -> tool_run srt now argv bs f f' -> scan srt (file_text bs) = Ok d ->
  let o := get_options argv in sound_file (fst (o_drv o)) bs d -> wanted o d who -> NoDup (map frame_id (file_msgs bs)) ->
  exists h c hu cu, left_files o f' who h c hu cu /\
    forall e md bits data dl mm, made_of o now d h c e -> floats_on e = false -> receive_free e ->
      In md (file_msgs bs) -> declared_for who md -> short_signed md -> id_is mm (frame_id md) ->
      unpack_call bits md data dl (inside (md_name md) mm) -> counter_at e bits md (inside (md_name md) mm) -> monitored e md (inside (md_name md) mm) ->
      exists mm', receive e who cu mm = Ok (mm', Some (VI U32 (frame_id md))) /\
        (forall x, In x (md_sigs md) -> decl_exact x -> slot_is mm' md x (decl_value x data)) /\ rest_kept md mm mm'.
Proof. exact run_delivers. Qed.
Print Assumptions C60_delivers_partial.

(** with signal conversion: raw and physical values *)
Theorem C60_delivers_phys_partial : forall srt now argv bs f f' d who, orders srt -> tool_run srt now argv bs f f' -> scan srt (file_text bs) = Ok d ->
  let o := get_options argv in sound_file (fst (o_drv o)) bs d -> wanted o d who -> NoDup (map frame_id (file_msgs bs)) ->
  exists h c hu cu, left_files o f' who h c hu cu /\
    forall e md bits data dl mm, made_of o now d h c e -> floats_on e = true -> receive_free e ->
      In md (file_msgs bs) -> declared_for who md -> short_signed md -> convertible (file_msgs bs) md -> id_is mm (frame_id md) ->
      unpack_call bits md data dl (inside (md_name md) mm) -> phys_struct (inside (md_name md) mm) md ->
      counter_at e bits md (inside (md_name md) mm) -> monitored e md (inside (md_name md) mm) ->
      exists mm', receive e who cu mm = Ok (mm', Some (VI U32 (frame_id md))) /\
        (forall x, In x (md_sigs md) -> decl_exact x -> slot_is mm' md x (decl_value x data) /\
           (unscaledb x = false -> exists v, m_scal mm' (sub_path (md_name md) (phys_name x)) = Some (phys_object x, v) /\ phys_value x (decl_value x data) v)) /\
        rest_kept md mm mm'.
Proof. exact run_delivers_phys. Qed.
Print Assumptions C60_delivers_phys_partial.

(** frames of messages that are not declared for the node change nothing *)
Theorem C60_ignores_partial : forall srt now argv bs f f' d who, orders srt -> tool_run srt now argv bs f f' -> scan srt (file_text bs) = Ok d ->
  let o := get_options argv in sound_file (fst (o_drv o)) bs d -> wanted o d who -> NoDup (map frame_id (file_msgs bs)) ->
  exists h c hu cu, left_files o f' who h c hu cu /\
    forall e mm i, made_of o now d h c e -> receive_free e -> (exists md, In md (file_msgs bs) /\ declared_for who md) -> id_is mm i ->
      (forall md, In md (file_msgs bs) -> declared_for who md -> frame_id md <> i) ->
      exists mm', receive e who cu mm = Ok (mm', Some (VI U32 0)) /\ (forall p, p <> "recid" -> m_scal mm' p = m_scal mm p) /\ m_arr mm' = m_arr mm.
Proof. exact run_ignores. Qed.
Print Assumptions C60_ignores_partial.

(** two runs on the same DBC file, with different options and drivers of different names: what Pack of the one sends, Receive of the
    other stores *)
Theorem C60_network_partial : forall srt1 srt2 now1 now2 argv1 argv2 bs f1 f1' f2 f2' d1 d2 who, orders srt1 -> orders srt2 ->
  tool_run srt1 now1 argv1 bs f1 f1' -> tool_run srt2 now2 argv2 bs f2 f2' -> scan srt1 (file_text bs) = Ok d1 -> scan srt2 (file_text bs) = Ok d2 ->
  let o1 := get_options argv1 in let o2 := get_options argv2 in
  sound_file (fst (o_drv o1)) bs d1 -> sound_file (fst (o_drv o2)) bs d2 -> wanted o2 d2 who -> NoDup (map frame_id (file_msgs bs)) ->
  exists h1 c1 h2 c2 hu cu, holds o1 f1' "lib" (str_tolower (fst (o_drv o1)) ++ ".h") h1 /\ holds o1 f1' "lib" (str_tolower (fst (o_drv o1)) ++ ".c") c1 /\
    left_files o2 f2' who h2 c2 hu cu /\
    forall e1 e2 md bits1 bits2 mx data hash mm1 mm2 dl data2, made_of o1 now1 d1 h1 c1 e1 -> floats_on e1 = false -> made_of o2 now2 d2 h2 c2 e2 -> floats_on e2 = false ->
      receive_free e2 -> In md (file_msgs bs) -> declared_for who md -> disjoint_bits md -> short_signed md ->
      pack_call e1 bits1 md mx data mm1 -> computing e1 bits1 md hash mm1 -> id_is mm2 (frame_id md) ->
      unpack_call bits2 md data2 dl (inside (md_name md) mm2) -> counter_at e2 bits2 md (inside (md_name md) mm2) -> monitored e2 md (inside (md_name md) mm2) ->
      exists mm1' data' mm2', pack_decl e1 md mm1 = Ok (mm1', Some (VI U32 (frame_id md))) /\ frame e1 mm1' data' /\
        (firstn (N.to_nat (md_dlc md)) data2 = firstn (N.to_nat (md_dlc md)) data' ->
           receive e2 who cu mm2 = Ok (mm2', Some (VI U32 (frame_id md))) /\ rest_kept md mm2 mm2' /\
           forall x z, In x (md_sigs md) -> decl_exact x -> ~ checksum_decl e1 md x -> decl_is mm1 x z ->
             (~ counter_decl e1 md x -> decl_carries x z -> slot_is mm2' md x z) /\
             (counter_decl e1 md x -> sd_signed x = false -> slot_is mm2' md x ((z + 1) mod 2 ^ Z.of_N (sd_len x)))).
Proof. exact runs_talk. Qed.
Print Assumptions C60_network_partial.

(** ** A run on the file of C53 (with comments, a counter and a checksum), for the nodes ECU, GW and Dash_2 *)

Definition disk (bs : list block) : fs := files [(["a.dbc"], File (file_text bs)); (["out"], Dir)] [].
Definition left_by (bs : list block) (more : list string) : fs := match run isort "now" (args more) (disk bs) with Ok f => f | _ => disk bs end.
Lemma is_run : forall bs more, params_valid (get_options (args more)) = true -> fst (o_dbc (get_options (args more))) = "a.dbc" -> out_dir (get_options (args more)) = "out" ->
  o_rw (get_options (args more)) = true -> (match run isort "now" (args more) (disk bs) with Ok _ => true | _ => false end) = true ->
  tool_run isort "now" (args more) bs (disk bs) (left_by bs more).
Proof.
  intros bs more V DB OUT RW R. constructor.
  - unfold left_by. destruct (run _ _ _ _); [reflexivity|discriminate|discriminate].
  - exact V.
  - rewrite DB. split; reflexivity.
  - rewrite DB. split; reflexivity.
  - congruence.
  - intros d dir name _ _. rewrite OUT. split; reflexivity.
Qed.

Example C60_case : tool_run isort "now" (args ["-rw"; "-nodeutils"]) more_blocks (disk more_blocks) (left_by more_blocks ["-rw"; "-nodeutils"]) /\
  scan isort (file_text more_blocks) = Ok more_db /\ sound_file "Drv" more_blocks more_db /\ NoDup (map frame_id (file_msgs more_blocks)) /\
  wanted (get_options (args ["-rw"; "-nodeutils"])) more_db (Some "Dash_2") /\ declared_for (Some "Dash_2") engine_decl /\
  fst (o_drv (get_options (args ["-rw"; "-nodeutils"]))) = "Drv".
Proof.
  destruct C53_entries_case as (SC & SF & _).
  split; [apply is_run; vm_compute; reflexivity|]. split; [exact SC|]. split; [|split; [|split; [|split; [split; [discriminate|exists speed; cbn; auto]|reflexivity]]]].
  - destruct SF as [S1 S2 S3 S4 S5 S6]. constructor; [exact S1|exact S2|exact S3|split; [reflexivity|cbn; lia]|exact S5|exact S6].
  - vm_compute. repeat (constructor; [cbn; intuition discriminate|]). constructor.
  - split; [|split; [vm_compute; reflexivity|vm_compute; lia]]. split; [reflexivity|].
    assert (E : node_names (d_msgs more_db) = ["ECU"; "GW"; "Dash_2"]) by (vm_compute; reflexivity). split.
    + apply FsThms.node_in. rewrite E. cbn. auto.
    + intros n' N E'. apply FsThms.node_in in N. rewrite E in N. repeat destruct N as [<-|N]; try contradiction; try reflexivity; vm_compute in E'; discriminate E'.
Qed.
(** a call of Receive from the files that are left *)
Definition kept (f : fs) (dir name : string) : string := match look f ["out"; dir; name] with Some (File t) => t | _ => "" end.
Definition built (bs : list block) (d : dbclist) (more : list string) : env :=
  {| e_fuel := 0; e_drv := "Drv"; e_g := st_g (app_settings (get_options (args more)) "now" d); e_db := d;
     e_h := kept (left_by bs more) "lib" "drv.h"; e_src := kept (left_by bs more) "lib" "drv.c"; e_conf := []; e_user := no_user; e_calls := no_calls |}.
Definition dash_net : env := Eval vm_compute in built more_blocks more_db ["-rw"; "-nodeutils"].
Definition dash_src : string := Eval vm_compute in kept (left_by more_blocks ["-rw"; "-nodeutils"]) "butl" "dash_2_drv-binutil.c".
Example C60_call : dash_net = built more_blocks more_db ["-rw"; "-nodeutils"] /\
  holds (get_options (args ["-rw"; "-nodeutils"])) (left_by more_blocks ["-rw"; "-nodeutils"]) "butl" "dash_2_drv-binutil.c" dash_src /\
  exists mm', receive dash_net (Some "Dash_2") dash_src (dash_mem 291) = Ok (mm', Some (VI U32 291)) /\
    slot_is mm' engine_decl speed (-13) /\ slot_is mm' engine_decl (plain_sig "Torque" 33 6) 21 /\ slot_is mm' last_decl (plain_sig "A" 0 8) 3.
Proof. split; [vm_compute; reflexivity|]. split; [vm_compute; reflexivity|]. eexists. split; [vm_compute; reflexivity|]. vm_compute. auto. Qed.

(** ** Two nodes with the names GW and gw *)

Definition upper_decl : msgdecl := {| md_id := 5; md_name := "Up"; md_dlc := 2; md_tx := "ECU"; md_sigs := [plain_sig "A" 0 8] |}.
Definition small_sig : sigdecl :=
  {| sd_name := "B"; sd_mark := MarkNone; sd_start := 0; sd_len := 8; sd_order := Intel; sd_signed := false;
     sd_factor := NInt 1; sd_offset := NInt 0; sd_low := "0"; sd_high := "0"; sd_unit := ""; sd_recs := ["gw"] |}.
Definition lower_decl : msgdecl := {| md_id := 6; md_name := "Low"; md_dlc := 2; md_tx := "ECU"; md_sigs := [small_sig] |}.
Definition cases_blocks : list block := [BLine "BU_: ECU GW gw"; BMsg upper_decl; BMsg lower_decl].
Definition cases_db : dbclist := Eval vm_compute in db_of (file_text cases_blocks).
Definition cases : env := Eval vm_compute in built cases_blocks cases_db ["-rw"; "-nodeutils"].
Definition cases_src : string := Eval vm_compute in kept (left_by cases_blocks ["-rw"; "-nodeutils"]) "butl" "gw_drv-binutil.c".
Definition cases_mem : mem := mk_mem (("_id", (LInt U32, VI U32 5)) :: dlc_obj 2 :: slots false upper_decl 3)%list "_d" [42; 0]%Z.
Lemma small_ok : clear_decl small_sig.
Proof.
  split; [|split; vm_compute; reflexivity]. constructor; cbn; try (vm_compute; reflexivity); try discriminate.
  - split; [discriminate|reflexivity].
  - vm_compute. auto.
  - vm_compute. auto.
  - split; [discriminate|reflexivity].
  - split; [discriminate|reflexivity].
  - intros x [<-|[]]; split; try discriminate; reflexivity.
Qed.
Lemma cases_sound : sound_file "Drv" cases_blocks cases_db.
Proof.
  constructor.
  - assert (NN : forall s, negb (String.eqb s "") && all_chars node_char s = true -> node_name s).
    { intros s H. apply andb_true_iff in H as [H1 H2]. split; auto. intros ->. discriminate. }
    intros b [<-|[<-|[<-|[]]]]; (split; [cbn [block_ok]|cbn [sized_block]]).
    + split; [reflexivity|]. split; [reflexivity|]. vm_compute. auto.
    + reflexivity.
    + constructor; cbn [md_id md_name md_dlc md_tx md_sigs upper_decl]; [vm_compute; reflexivity|split; [vm_compute; reflexivity|split; [vm_compute; reflexivity|lia]]|apply NN; reflexivity|apply NN; reflexivity|].
      intros s [<-|[]]; apply plain_ok; [apply NN; reflexivity|vm_compute; reflexivity|vm_compute; reflexivity].
    + intros d [<-|[]]; apply unscaled_sized; cbn; auto; lia.
    + constructor; cbn [md_id md_name md_dlc md_tx md_sigs lower_decl]; [vm_compute; reflexivity|split; [vm_compute; reflexivity|split; [vm_compute; reflexivity|lia]]|apply NN; reflexivity|apply NN; reflexivity|].
      intros s [<-|[]]; apply small_ok.
    + intros d [<-|[]]; apply unscaled_sized; cbn; auto; lia.
  - intros m [<-|[<-|[]]]; apply fitsb_ok; vm_compute; reflexivity.
  - apply nodupb_ok. vm_compute. reflexivity.
  - vm_compute. split; [reflexivity|lia].
  - intros m M. split; [apply entriesb_ok; revert m M; apply forallb_forall; vm_compute; reflexivity|].
    intros rs. repeat destruct M as [<-|M]; try contradiction; vm_compute; discriminate.
  - apply nodupb_ok. vm_compute. reflexivity.
Qed.
(** Up is declared for GW; with the source that is left under the name of this node, Receive ignores it *)
Theorem C60_case_refuted : exists argv bs f f' d h c cu e md x data mm mm', tool_run isort "now" argv bs f f' /\ scan isort (file_text bs) = Ok d /\
  let o := get_options argv in o_nodeutils o = true /\ sound_file (fst (o_drv o)) bs d /\ NoDup (map frame_id (file_msgs bs)) /\
  holds o f' "lib" (str_tolower (fst (o_drv o)) ++ ".h") h /\ holds o f' "lib" (str_tolower (fst (o_drv o)) ++ ".c") c /\
  holds o f' "butl" (util_name (fst (o_drv o)) (Some "GW") ++ "-binutil.c") cu /\
  made_of o "now" d h c e /\ In md (file_msgs bs) /\ declared_for (Some "GW") md /\ id_is mm (frame_id md) /\
  unpack_call false md data 2 (inside (md_name md) mm) /\ In x (md_sigs md) /\ decl_value x data = 42%Z /\
  receive e (Some "GW") cu mm = Ok (mm', Some (VI U32 0)) /\ slot_is mm' md x 3.
Proof.
  exists (args ["-rw"; "-nodeutils"]), cases_blocks, (disk cases_blocks), (left_by cases_blocks ["-rw"; "-nodeutils"]), cases_db, (e_h cases), (e_src cases), cases_src, cases,
    upper_decl, (plain_sig "A" 0 8), [42; 0]%Z, cases_mem. eexists.
  split; [apply is_run; vm_compute; reflexivity|]. split; [vm_compute; reflexivity|]. cbv zeta. split; [reflexivity|]. split; [exact cases_sound|].
  split; [vm_compute; repeat (constructor; [cbn; intuition discriminate|]); constructor|].
  split; [vm_compute; reflexivity|]. split; [vm_compute; reflexivity|]. split; [vm_compute; reflexivity|].
  split; [repeat (split; [vm_compute; reflexivity|]); intros y _; reflexivity|]. split; [cbn; auto|]. split; [split; [discriminate|eexists; split; [now left|now left]]|].
  split; [split; [reflexivity|vm_compute; split; [discriminate|reflexivity]]|]. split.
  - constructor.
    + split; [split; [reflexivity|]|split].
      * intros q Q. cbn [inside cases_mem mk_mem m_arr]. destruct (String.eqb q "_d") eqn:E; [apply String.eqb_eq in E; contradiction|reflexivity].
      * intros y Y. unfold is_byte. repeat destruct Y as [<-|Y]; try contradiction; lia.
      * vm_compute. discriminate.
    + split; [reflexivity|lia].
    + intros y Y. repeat destruct Y as [<-|Y]; try contradiction; apply has_typeb_ok; vm_compute; reflexivity.
  - split; [now left|]. split; [vm_compute; reflexivity|]. split; [vm_compute; reflexivity|vm_compute; reflexivity].
Qed.
Print Assumptions C60_case_refuted.
