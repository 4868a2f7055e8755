(** Properties C41, C42 and C50: the struct of a message in the emitted header. *)

From Coq Require Import ZArith NArith List String Ascii Bool Lia ZifyBool.
From Verif Require Import Base Dbl CSyntax CSem CRun Types Formatter SigPrinter Settings MainGen LineParser Scanner App CodecSpec MsgSpec
  DriverSpec HeaderSpec CodecEnv CodecThms CodecFacts Concrete Samples NamesSpec StructSpec SpliceProof StructProof StructThms HeadTotal GenTotal Props_conv.
Import ListNotations.
Open Scope string_scope.

Definition switches_keptb (e : env) : bool :=
  forallb (fun m => forallb (fun x => negb (existsb (String.eqb x) (switches (e_g e)))) (entry_names m)) (d_msgs (e_db e)).
Lemma switches_keptb_ok : forall e, switches_keptb e = true -> switches_kept e.
Proof.
  intros e H msg x M I J. unfold switches_keptb in H. rewrite forallb_forall in H. specialize (H msg M). rewrite forallb_forall in H. specialize (H x I).
  apply negb_true_iff in H.
  assert (X : existsb (String.eqb x) (switches (e_g e)) = true) by (apply existsb_exists; exists x; split; [exact J|apply String.eqb_refl]).
  congruence.
Qed.
Definition no_backslashesb (e : env) : bool :=
  all_chars not_backslash (n_cominfo (e_g e)) && all_chars not_backslash (n_drvinfo (e_g e)) &&
  forallb (fun m => all_chars not_backslash (g_comment m) && forallb (fun sg => all_chars not_backslash (s_comment sg) &&
    all_chars not_backslash (s_valtext sg) && all_chars not_backslash (s_unit sg)) (g_sigs m)) (d_msgs (e_db e)).
Lemma no_backslashesb_ok : forall e, no_backslashesb e = true -> no_backslashes e.
Proof.
  intros e H. unfold no_backslashesb in H. splitb H. split; [assumption|]. split; [assumption|].
  intros m I. rewrite forallb_forall in H0. specialize (H0 m I). apply andb_true_iff in H0. destruct H0 as [A B]. split; [assumption|].
  intros sg S. rewrite forallb_forall in B. specialize (B sg S). splitb B. repeat split; assumption.
Qed.

Lemma in_eqb : forall x l, existsb (String.eqb x) l = true -> In x l.
Proof. intros x l H. apply existsb_exists in H. destruct H as (y & I & E). apply String.eqb_eq in E. now subst. Qed.

Definition define (x : string) : string * macro := (x, {| m_params := None; m_body := [] |}).
(** the sample with bit-fields, and with all members of the struct *)
Definition bits_env : env := the_env 0 "drv" sample_db sample_h sample_c [define "DRV_USE_BITS_SIGNAL"] no_user no_calls.
Lemma bits_program : program bits_env.
Proof. apply programb_ok. vm_compute. reflexivity. Qed.
Definition all_env : env :=
  the_env 0 "drv" sample_db sample_h sample_c
    [define "DRV_USE_BITS_SIGNAL"; define "DRV_USE_SIGFLOAT"; define "DRV_AUTO_ROLL"; define "DRV_USE_DIAG_MONITORS"] no_user no_calls.
Lemma all_program : program all_env.
Proof. apply programb_ok. vm_compute. reflexivity. Qed.

(** ** C50.  The struct that a compiler reads in the header has for each signal a member that keeps every value of
    the signal; it is a bit-field exactly when the switch is set and the signal is shorter than 8 bits. *)
Theorem C50_bit_fields : forall e msg,
  program e -> In msg (d_msgs (e_db e)) -> g_notempty msg = true -> no_backslashes e -> switches_kept e ->
  exists ds, declares (text_toks (e_conf e) (e_h e)) (type_name msg) ds /\
    (forall sg, In sg (g_sigs msg) -> exists d t, In d ds /\ md_name d = s_name sg /\ member_ty d = Some t /\
       md_bits d = (if on e n_usebits && (s_len sg <? 8)%Z then Some (s_len sg) else None) /\
       forall z t0, carries (s_signed sg) (s_len sg) z -> exists t1, to_obj t (VI t0 z) = Ok (VI t1 z)) /\
    (forall m, laid_out m ds -> has_struct (floats_on e) (rolls_on e) (on e n_usebits) msg m).
Proof. exact bitfields. Qed.
Print Assumptions C50_bit_fields.

(** Unpack stores the same numbers with and without bit-fields.  (For Pack this is C12_flavours_agree, whose two
    structs may differ in bit-fields.) *)
Theorem C50_unpack_same : forall e1 e2 msg bits1 bits2 d dl1 dl2 tick1 tick2 hash1 hash2 hook1 hook2 pf1 pf2 m1 m2,
  receives e1 msg bits1 d dl1 tick1 hash1 hook1 pf1 m1 -> receives e2 msg bits2 d dl2 tick2 hash2 hook2 pf2 m2 -> signed_fit msg ->
  exists m1' m2', unpack e1 msg m1 = Ok (m1', Some (VI U32 (g_id msg))) /\ unpack e2 msg m2 = Ok (m2', Some (VI U32 (g_id msg))) /\
    forall sg, In sg (g_sigs msg) -> exists z, field_is m1' sg z /\ field_is m2' sg z /\ carries (s_signed sg) (s_len sg) z.
Proof. exact unpack_same. Qed.
Print Assumptions C50_unpack_same.

Example C50_case : program all_env /\ In status (d_msgs (e_db all_env)) /\ g_notempty status = true /\ no_backslashes all_env /\
  switches_kept all_env /\ on all_env n_usebits = true /\
  map (fun d => (md_type d, md_name d, md_bits d)) (all_members true true true true status) =
    [("uint8_t", "RC", Some 4%Z); ("int8_t", "Flag", Some 3%Z); ("uint16_t", "Val", None); ("uint8_t", "CS", None);
     ("uint8_t", "RC_expt", Some 4%Z); ("FrameMonitor_t", "mon1", None)] /\
  to_obj (LBits I8 3) (VI I32 (-4)) = Ok (VI I32 (-4)) /\ to_obj (LBits I8 3) (VI I32 4) = Ok (VI I32 (-4)).
Proof.
  split; [apply all_program|]. split; [vm_compute; tauto|]. split; [reflexivity|].
  split; [apply no_backslashesb_ok; vm_compute; reflexivity|]. split; [apply switches_keptb_ok; vm_compute; reflexivity|].
  split; [vm_compute; reflexivity|]. split; [reflexivity|]. split; vm_compute; reflexivity.
Qed.
Definition zeros : list (string * Z) := [("RC", 0%Z); ("Flag", 0%Z); ("Val", 0%Z); ("CS", 0%Z); ("RC_expt", 0%Z)].
Definition some_data : list Z := [0xC5%Z; 0x34%Z; 0x12%Z; 0xAA%Z].
Example C50_unpack_case : receives bits_env status true some_data 4 0 no_hash no_hook no_phys (rx_mem status true some_data 4 zeros) /\
  receives sample status false some_data 4 0 no_hash no_hook no_phys (rx_mem status false some_data 4 zeros) /\ signed_fit status.
Proof.
  split; [apply simple_receives; [apply bits_program|vm_compute; tauto|vm_compute; reflexivity]|].
  split; [apply simple_receives; [apply sample_program|vm_compute; tauto|vm_compute; reflexivity]|].
  intros sg I SI. assert (X : forallb (fun sg => negb (s_signed sg) || (s_len sg <=? 31)%Z) (g_sigs status) = true) by (vm_compute; reflexivity).
  rewrite forallb_forall in X. specialize (X sg I). rewrite SI in X. cbn in X. lia.
Qed.

(** ** C41.  Full claim: comments of the data base stay comments whatever their text is.  Proved: every line of a
    comment is behind two slashes; and when no text of the data base contains a backslash, the declared struct is
    the one given by the signals alone. *)
Theorem C41_comments_partial : forall e msg, program e -> In msg (d_msgs (e_db e)) ->
  (g_comment msg <> "" -> forall l, In l (lines (g_comment msg)) -> In ("// " ++ l) (lines (e_h e))) /\
  (g_notempty msg = true -> forall sg, In sg (g_sigs msg) -> s_comment sg <> "" ->
     forall l, In l (lines (s_comment sg)) -> In ("  // " ++ l) (lines (e_h e))) /\
  (g_notempty msg = true -> no_backslashes e -> switches_kept e ->
     declares (text_toks (e_conf e) (e_h e)) (type_name msg)
       (all_members (on e n_usebits) (on e n_usesigfloat) (on e n_useroll) (on e n_usemon) msg)).
Proof.
  intros e msg P I. destruct (driver_comments _ _ _ _ _ msg (pr_driver _ P) (pr_header _ P) I) as [A B].
  split; [exact A|]. split; [exact B|]. intros N NB K. apply program_struct; auto. now apply program_splice.
Qed.
Print Assumptions C41_comments_partial.
Example C41_case : exists sg, In sg (g_sigs status) /\ In "<RollingCounter>" (lines (s_comment sg)) /\ In "  // <RollingCounter>" (lines sample_h).
Proof.
  exists (nth 0 (g_sigs status) no_sig). split; [vm_compute; tauto|]. split; apply in_eqb; vm_compute; reflexivity.
Qed.

(** a comment that ends in a backslash swallows the declaration of its signal *)
Definition slash_text : string :=
"BO_ 291 Engine: 8 ECU
 SG_ Speed : 4|12@1+ (1,0) [0|0] """" GW
 SG_ Temp : 16|9@1- (1,0) [0|0] """" GW
BO_ 5 Last: 1 GW
 SG_ Dummy : 0|1@1+ (1,0) [0|0] """" ECU
CM_ SG_ 291 Speed ""see C:\"";
".
Definition slash_db : dbclist := Eval vm_compute in db_of slash_text.
Definition slash_files : list (string * string) := Eval vm_compute in files_of "drv" slash_db.
Definition slash : env :=
  Eval vm_compute in the_env 0 "drv" slash_db (snd (nth 0 slash_files ("", ""))) (snd (nth 1 slash_files ("", ""))) [] no_user no_calls.
Lemma slash_program : program slash.
Proof. apply (programb_ok 0 "drv" slash_db (e_h slash) (e_src slash) [] no_user no_calls). vm_compute. reflexivity. Qed.
Theorem C41_comments_refuted : exists text d e msg sg, scan isort text = Ok d /\ program e /\ e_db e = d /\
  In msg (d_msgs d) /\ g_notempty msg = true /\ In sg (g_sigs msg) /\ ~ In (TId (s_name sg)) (text_toks (e_conf e) (e_h e)).
Proof.
  exists slash_text, slash_db, slash, (nth 0 (d_msgs slash_db) engine), (nth 0 (g_sigs (nth 0 (d_msgs slash_db) engine)) no_sig).
  split; [vm_compute; reflexivity|]. split; [apply slash_program|]. split; [reflexivity|]. split; [vm_compute; tauto|].
  split; [reflexivity|]. split; [vm_compute; tauto|].
  set (ts := text_toks (e_conf slash) (e_h slash)). intros I.
  assert (X : forallb (fun t => match t with TId x => negb (x =? "Speed")%string | _ => true end) ts = true) by (vm_compute; reflexivity).
  rewrite forallb_forall in X. specialize (X _ I). vm_compute in X. discriminate.
Qed.
Print Assumptions C41_comments_refuted.

(** ** C42.  Full claim: the header of every accepted data base is written.  Proved for messages that fit into
    their frames, with factors and offsets in the range of int: then the run ends normally exactly when the
    declaration of each expected counter value is not longer than the comment column. *)
Theorem C42_struct_padding_partial : forall srt d s, sorts srt ->
  (forall m, In m (d_msgs d) -> msg_ok m /\ csm_first8 m /\ forall sg, In sg (g_sigs m) -> ints_fit sg) ->
  ((forall m, In m (d_msgs d) -> g_notempty m = true -> counter_fits m) /\ exists files, generate_main srt d s = Ok files) \/
  ((exists m, In m (d_msgs d) /\ g_notempty m = true /\ ~ counter_fits m) /\ generate_main srt d s = Throw "std::length_error").
Proof. exact generation. Qed.
Print Assumptions C42_struct_padding_partial.

Definition ints_fitb (sg : signal) : bool :=
  s_simple sg || s_double sg || match cast_i32 (s_factor sg), cast_i32 (s_offset sg) with Ok _, Ok _ => true | _, _ => false end.
Lemma ints_fitb_ok : forall sg, ints_fitb sg = true -> ints_fit sg.
Proof.
  intros sg H A B. unfold ints_fitb in H. rewrite A, B in H. cbn [orb] in H.
  destruct (cast_i32 (s_factor sg)); try discriminate. destruct (cast_i32 (s_offset sg)); try discriminate. eauto.
Qed.
Example C42_case : (forall m, In m (d_msgs sample_db) -> msg_ok m /\ csm_first8 m /\ forall sg, In sg (g_sigs m) -> ints_fit sg) /\
  forall m, In m (d_msgs sample_db) -> g_notempty m = true -> counter_fits m.
Proof.
  split.
  - intros m I. destruct (dr_msgs _ _ _ _ _ (pr_driver _ sample_program) m I) as (A & B & _). split; [exact A|]. split; [exact B|].
    intros sg S. apply ints_fitb_ok.
    assert (X : forallb (fun m => forallb ints_fitb (g_sigs m)) sample_db.(d_msgs) = true) by (vm_compute; reflexivity).
    rewrite forallb_forall in X. specialize (X m I). rewrite forallb_forall in X. now apply X.
  - intros m I _ rs R.
    assert (X : forallb (fun m => match roll_sig m with Some rs => (decl_width rs 5 <=? column m)%nat | None => true end) sample_db.(d_msgs) = true) by (vm_compute; reflexivity).
    rewrite forallb_forall in X. specialize (X m I). rewrite R in X. now apply Nat.leb_le.
Qed.

(** a rolling counter of 4 bits whose name has 24 characters ends the run with an exception *)
Definition long_text : string :=
"BO_ 291 Engine: 8 ECU
 SG_ EngineRollingCounterNibb : 0|4@1+ (1,0) [0|0] """" GW
CM_ SG_ 291 EngineRollingCounterNibb ""<RollingCounter>"";
".
Theorem C42_struct_padding_refuted : exists text d, scan isort text = Ok d /\
  (forall m, In m (d_msgs d) -> msg_ok m /\ csm_first8 m /\ short_lines m) /\
  generate_main isort d (settings_of "drv" d) = Throw "std::length_error".
Proof.
  exists long_text, (db_of long_text). split; [vm_compute; reflexivity|]. split; [|vm_compute; reflexivity].
  intros m I. assert (X : forallb (fun m => msg_okb m && csm_first8b m && short_linesb m) (d_msgs (db_of long_text)) = true) by (vm_compute; reflexivity).
  rewrite forallb_forall in X. specialize (X m I). clear I.
  apply andb_true_iff in X. destruct X as [X X3]. apply andb_true_iff in X. destruct X as [X1 X2].
  split; [exact (msg_okb_ok _ X1)|]. split; [exact (csm_first8b_ok _ X2)|exact (short_linesb_ok _ X3)].
Qed.
Print Assumptions C42_struct_padding_refuted.

(** an integer factor beyond the range of int is converted all the same: undefined behaviour *)
Definition factor_text : string :=
"BO_ 291 Engine: 8 ECU
 SG_ Speed : 0|8@1+ (3000000000,0) [0|0] """" GW
".
Theorem C42_factor_refuted : exists text d w, scan isort text = Ok d /\
  (forall m, In m (d_msgs d) -> msg_ok m /\ csm_first8 m /\ short_lines m) /\
  generate_main isort d (settings_of "drv" d) = UB w.
Proof.
  exists factor_text, (db_of factor_text). eexists. split; [vm_compute; reflexivity|]. split; [|vm_compute; reflexivity].
  intros m I. assert (X : forallb (fun m => msg_okb m && csm_first8b m && short_linesb m) (d_msgs (db_of factor_text)) = true) by (vm_compute; reflexivity).
  rewrite forallb_forall in X. specialize (X m I). clear I.
  apply andb_true_iff in X. destruct X as [X X3]. apply andb_true_iff in X. destruct X as [X1 X2].
  split; [exact (msg_okb_ok _ X1)|]. split; [exact (csm_first8b_ok _ X2)|exact (short_linesb_ok _ X3)].
Qed.
Print Assumptions C42_factor_refuted.
