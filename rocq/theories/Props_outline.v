(** Properties C57 and C58: what the core header declares, and the members of its structs. *)

From Coq Require Import ZArith NArith List String Ascii Bool Lia ZifyBool Permutation.
From Verif Require Import Base Dbl CSyntax CSem CRun Types Formatter SigPrinter Settings MainGen LineParser Scanner App CodecSpec MsgSpec
  DriverSpec HeaderSpec CodecEnv Concrete Samples NamesSpec StructSpec StructProof StructThms Props_struct OutlineSpec OutlineThms.
Import ListNotations.
Open Scope string_scope.

(** ** C57.  Full claim: for a compiler, the core header is one struct type per message with signals, then one
    prototype of Unpack and one of Pack per message, and nothing else; the source defines the functions with these
    heads and the function for signs, and nothing else.  Proved when no text of the data base contains a backslash and
    no entry of a value table has the name of a switch; both conditions are needed (C41_comments_refuted,
    C57_table_refuted). *)
Theorem C57_outline_partial : forall e, program e -> no_backslashes e -> switches_kept e ->
  exists ms, Permutation ms (with_signals (d_msgs (e_db e))) /\
    text_toks (e_conf e) (e_h e) = outline e ms /\ map fd_head (u_funs (e_unit e)) = definitions e ms.
Proof. exact outline_of. Qed.
Print Assumptions C57_outline_partial.

Definition cpp_env : env :=
  the_env 0 "drv" sample_db sample_h sample_c [define "DRV_USE_BITS_SIGNAL"; define "DRV_USE_SIGFLOAT"; define "DRV_USE_CANSTRUCT"; define "__cplusplus"] no_user no_calls.
Example C57_case : program cpp_env /\ no_backslashes cpp_env /\ switches_kept cpp_env /\
  map g_name (with_signals (d_msgs (e_db cpp_env))) = ["Engine"; "Status"; "Last"] /\
  firstn 12 (text_toks (e_conf cpp_env) (e_h cpp_env)) =
    [TId "extern"; TBad; TId "C"; TBad; TP PLbrace; TId "typedef"; TId "struct"; TP PLbrace; TId "uint8_t"; TId "Dummy"; TP PColon; TInt I32 1] /\
  List.length (text_toks (e_conf cpp_env) (e_h cpp_env)) = 144%nat /\ List.length (u_funs (e_unit cpp_env)) = 7%nat.
Proof.
  split; [apply programb_ok; vm_compute; reflexivity|]. split; [apply no_backslashesb_ok; vm_compute; reflexivity|].
  split; [apply switches_keptb_ok; vm_compute; reflexivity|]. repeat split; vm_compute; reflexivity.
Qed.

(** an entry of a value table that has the name of a switch turns it on behind the configuration's back *)
Definition table_text : string :=
"BO_ 291 USE: 8 ECU
 SG_ DRV : 4|12@1+ (1,0) [0|0] """" GW
BO_ 5 Last: 1 GW
 SG_ Dummy : 0|1@1+ (1,0) [0|0] """" ECU
VAL_ 291 DRV 1 ""CANSTRUCT"" ;
".
Definition table_db : dbclist := Eval vm_compute in db_of table_text.
Definition table_files : list (string * string) := Eval vm_compute in files_of "drv" table_db.
Definition table : env :=
  Eval vm_compute in the_env 0 "drv" table_db (snd (nth 0 table_files ("", ""))) (snd (nth 1 table_files ("", ""))) [] no_user no_calls.
Definition not_bytes (ts : list tok) : bool :=
  match nth_error ts 1, nth_error ts 7 with
  | Some (TId x), Some (TId y) => negb (String.eqb x "Pack_USE_drv" && String.eqb y "uint8_t")
  | _, _ => true
  end.
Theorem C57_table_refuted : exists text d e msg, scan isort text = Ok d /\ program e /\ e_db e = d /\ no_backslashes e /\
  e_conf e = [] /\ In msg (with_signals (d_msgs d)) /\ ~ In (pack_head (e_drv e) (on e n_usestruct) msg) (map fd_head (u_funs (e_unit e))).
Proof.
  exists table_text, table_db, table, (nth 0 (d_msgs table_db) engine).
  split; [vm_compute; reflexivity|].
  split; [apply (programb_ok 0 "drv" table_db (e_h table) (e_src table) [] no_user no_calls); vm_compute; reflexivity|].
  split; [reflexivity|]. split; [apply no_backslashesb_ok; vm_compute; reflexivity|]. split; [reflexivity|]. split; [vm_compute; tauto|].
  intros I.
  assert (X : forallb not_bytes (map fd_head (u_funs (e_unit table))) = true) by (vm_compute; reflexivity).
  pose proof (proj1 (forallb_forall _ _) X _ I) as Z. vm_compute in Z. discriminate Z.
Qed.
Print Assumptions C57_table_refuted.

(** ** C58.  Full claim: no struct of the header has two members of one name.  Proved: for messages whose signals lead
    to different names (and none ends up as the name of the expected counter), the declared members have different names
    exactly when the rolling counter is unscaled or one of its two switches is off, and no signal takes the name of the
    monitor while monitors are on.  The full claim is false (C58_counter_refuted, C58_monitor_refuted,
    C58_same_name_refuted). *)
Theorem C58_members_partial : forall e msg, program e -> In msg (d_msgs (e_db e)) -> g_notempty msg = true -> no_backslashes e -> switches_kept e ->
  declares (text_toks (e_conf e) (e_h e)) (type_name msg) (members_in e msg) /\
  (NoDup (map md_name (members_in e msg)) <->
   (on e n_useroll && on e n_usesigfloat = true -> forall sg, roll_sig msg = Some sg -> s_simple sg = true) /\
   (on e n_usemon = true -> forall sg, In sg (g_sigs msg) ->
      s_name sg <> "mon1" /\ (on e n_usesigfloat = true -> s_simple sg = false -> s_namefloat sg <> "mon1"))).
Proof.
  intros e msg P I N NB K. split; [apply program_struct; auto; now apply program_splice|].
  apply members_nodup. destruct (pr_driver _ P) as [_ _ MS _]. now destruct (MS msg I).
Qed.
Print Assumptions C58_members_partial.
Example C58_case : program all_env /\ In status (d_msgs (e_db all_env)) /\ g_notempty status = true /\ no_backslashes all_env /\ switches_kept all_env /\
  on all_env n_useroll && on all_env n_usesigfloat && on all_env n_usemon = true /\
  map md_name (members_in all_env status) = ["RC"; "Flag"; "Val"; "CS"; "RC_expt"; "mon1"].
Proof.
  split; [apply all_program|]. split; [vm_compute; tauto|]. split; [reflexivity|].
  split; [apply no_backslashesb_ok; vm_compute; reflexivity|]. split; [apply switches_keptb_ok; vm_compute; reflexivity|].
  split; vm_compute; reflexivity.
Qed.

(** a scaled rolling counter: its physical value is declared again beside the expected value *)
Definition counter_text : string :=
"BO_ 291 Engine: 8 ECU
 SG_ RC : 0|4@1+ (2,0) [0|0] """" GW
BO_ 5 Last: 1 GW
 SG_ Dummy : 0|1@1+ (1,0) [0|0] """" ECU
CM_ SG_ 291 RC ""<RollingCounter>"";
".
Definition counter_db : dbclist := Eval vm_compute in db_of counter_text.
Definition counter_files : list (string * string) := Eval vm_compute in files_of "drv" counter_db.
Definition counter_env : env :=
  Eval vm_compute in the_env 0 "drv" counter_db (snd (nth 0 counter_files ("", ""))) (snd (nth 1 counter_files ("", "")))
    [define "DRV_USE_SIGFLOAT"; define "DRV_AUTO_ROLL"] no_user no_calls.
Lemma counter_program : program counter_env.
Proof. apply (programb_ok 0 "drv" counter_db (e_h counter_env) (e_src counter_env) (e_conf counter_env) no_user no_calls). vm_compute. reflexivity. Qed.
Theorem C58_counter_refuted : exists text d e msg ds, scan isort text = Ok d /\ program e /\ e_db e = d /\ In msg (d_msgs d) /\
  declares (text_toks (e_conf e) (e_h e)) (type_name msg) ds /\ map md_name ds = ["RC_ro"; "RC_phys"; "RC_ro_expt"; "RC_phys"].
Proof.
  exists counter_text, counter_db, counter_env, (nth 0 (d_msgs counter_db) engine), (members_in counter_env (nth 0 (d_msgs counter_db) engine)).
  split; [vm_compute; reflexivity|]. split; [apply counter_program|]. split; [reflexivity|]. split; [vm_compute; tauto|].
  split; [|vm_compute; reflexivity].
  apply C58_members_partial; [apply counter_program|vm_compute; tauto|reflexivity|apply no_backslashesb_ok; vm_compute; reflexivity|apply switches_keptb_ok; vm_compute; reflexivity].
Qed.
Print Assumptions C58_counter_refuted.

(** a signal with the name of the monitor *)
Definition mon1_text : string :=
"BO_ 291 Engine: 8 ECU
 SG_ mon1 : 0|4@1+ (1,0) [0|0] """" GW
BO_ 5 Last: 1 GW
 SG_ Dummy : 0|1@1+ (1,0) [0|0] """" ECU
".
Definition mon1_db : dbclist := Eval vm_compute in db_of mon1_text.
Definition mon1_files : list (string * string) := Eval vm_compute in files_of "drv" mon1_db.
Definition mon1_env : env :=
  Eval vm_compute in the_env 0 "drv" mon1_db (snd (nth 0 mon1_files ("", ""))) (snd (nth 1 mon1_files ("", ""))) [define "DRV_USE_DIAG_MONITORS"] no_user no_calls.
Lemma mon1_program : program mon1_env.
Proof. apply (programb_ok 0 "drv" mon1_db (e_h mon1_env) (e_src mon1_env) (e_conf mon1_env) no_user no_calls). vm_compute. reflexivity. Qed.
Theorem C58_monitor_refuted : exists text d e msg ds, scan isort text = Ok d /\ program e /\ e_db e = d /\ In msg (d_msgs d) /\
  declares (text_toks (e_conf e) (e_h e)) (type_name msg) ds /\ map md_name ds = ["mon1"; "mon1"].
Proof.
  exists mon1_text, mon1_db, mon1_env, (nth 0 (d_msgs mon1_db) engine), (members_in mon1_env (nth 0 (d_msgs mon1_db) engine)).
  split; [vm_compute; reflexivity|]. split; [apply mon1_program|]. split; [reflexivity|]. split; [vm_compute; tauto|].
  split; [|vm_compute; reflexivity].
  apply C58_members_partial; [apply mon1_program|vm_compute; tauto|reflexivity|apply no_backslashesb_ok; vm_compute; reflexivity|apply switches_keptb_ok; vm_compute; reflexivity].
Qed.
Print Assumptions C58_monitor_refuted.

(** two signals of one name, and a signal with the name of another one's physical value, are accepted *)
Definition twice_text : string :=
"BO_ 291 Engine: 8 ECU
 SG_ A : 0|4@1+ (1,0) [0|0] """" GW
 SG_ A : 8|4@1+ (1,0) [0|0] """" GW
 SG_ B : 16|8@1+ (2,0) [0|0] """" GW
 SG_ B_phys : 24|8@1+ (1,0) [0|0] """" GW
".
Definition twice_db : dbclist := Eval vm_compute in db_of twice_text.
Definition twice_h : string := Eval vm_compute in snd (nth 0 (files_of "drv" twice_db) ("", "")).
Theorem C58_same_name_refuted : exists text d l h x ds, scan isort text = Ok d /\ generate_main isort d (settings_of "drv" d) = Ok l /\ h = snd (nth 0 l ("", "")) /\
  declares (text_toks [define "DRV_USE_SIGFLOAT"] h) x ds /\ map md_name ds = ["A"; "A"; "B_ro"; "B_phys"; "B_phys"].
Proof.
  exists twice_text, twice_db, (files_of "drv" twice_db), twice_h, "Engine_t", (all_members false true false false (nth 0 (d_msgs twice_db) engine)).
  split; [vm_compute; reflexivity|]. split; [vm_compute; reflexivity|]. split; [vm_compute; reflexivity|]. split; [|vm_compute; reflexivity].
  set (ts := text_toks [define "DRV_USE_SIGFLOAT"] twice_h).
  exists [], (skipn 21 ts), (firstn 15 (skipn 3 ts)). split; vm_compute; reflexivity.
Qed.
Print Assumptions C58_same_name_refuted.
