(** Properties C54 and C55: the monitor files and the configuration files. *)

From Coq Require Import ZArith NArith List String Ascii Bool Lia ZifyBool Permutation.
From Verif Require Import Base Dbl CSyntax CSem CRun Types Formatter Settings MainGen UtilGen LineParser Scanner App CodecSpec MsgSpec PPProof
  DriverSpec HeaderSpec CodecEnv Concrete Samples Props_util StructSpec GuardSpec FilesSpec FilesProof FilesThms ConfigProof LexLemmas DriverProof HeaderNames.
Import ListNotations.
Open Scope string_scope.

(** ** C54.  With monitors on, Unpack of a message calls FMon_X_drv(&_m->mon1, X_CANID). *)
Theorem C54_unpack_calls : forall drv g d h c M m, driver drv g d h c -> In m (d_msgs d) -> g_notempty m = true -> monitors_wanted drv M = true ->
  exists fd, find_fun (unpack_name drv m) (u_funs (compile M c)) = Some fd /\ within (hook_call drv m) (fd_body fd).
Proof. exact unpack_calls. Qed.
Print Assumptions C54_unpack_calls.

(** A run writes one monitor header.  After it, when monitors are wanted, that name is a macro that hands its two
    arguments to a function: one for all messages with _USE_MONO_FMON, its own otherwise.  Apart from these macros and
    two version macros it changes no macro.  To a C compiler it is the prototypes of these functions and nothing else. *)
Theorem C54_monitor_header : forall drv d s fs, emitted drv d s fs ->
  exists t, (forall t', In (f_fmonh_path (st_f s), t') fs <-> t' = t) /\ forall M,
  (monitors_wanted drv M = true -> forall m, In m (d_msgs d) -> lookup (hook_name drv m) (macros_after M t) = Some (hook_macro (hook_fun drv M m))) /\
  (forall x, (monitors_wanted drv M = true -> forall m, In m (d_msgs d) -> x <> hook_name drv m) -> ~ ver_macro drv x -> lookup x (macros_after M t) = lookup x M) /\
  (lookup "__cplusplus" M = None -> exists l, Permutation l (hook_funs drv M d) /\ toks_of M t = flat_map (fun f => hook_head f ++ [TP PSemi])%list l).
Proof. exact monitor_header. Qed.
Print Assumptions C54_monitor_header.

(** The monitor source defines exactly these functions, and each of them does nothing. *)
Theorem C54_monitor_source : forall drv d s fs t, emitted drv d s fs -> In (f_fmonc_path (st_f s), t) fs ->
  forall M, u_macros (compile M (uncomment t)) = M /\
  exists l, Permutation l (hook_funs drv M d) /\ Forall2 idle_fun l (u_funs (compile M (uncomment t))).
Proof. exact monitor_source. Qed.
Print Assumptions C54_monitor_source.

Theorem C54_monitor_includes : forall drv d s fs, emitted drv d s fs ->
  (forall t, In (f_fmonh_path (st_f s), t) fs -> In (str_tolower drv ++ "-config.h") (included (uncomment t)) /\ In "canmonitorutil.h" (included (uncomment t))) /\
  (forall t, In (f_fmonc_path (st_f s), t) fs -> In (str_tolower drv ++ "-fmon.h") (included (uncomment t))).
Proof. exact monitor_includes. Qed.
Print Assumptions C54_monitor_includes.

(** ** C55.  The driver configuration switches nothing on; removing the comment marks of any set of its seven
    definitions defines these macros and no others. *)
Theorem C55_config_switches : forall drv d s fs t, emitted drv d s fs -> In (f_confdir (st_f s) ++ "/" ++ str_tolower drv ++ "-config.h", t) fs -> forall on M,
  (forall x, lookup x (macros_after M (switched drv on t)) = if existsb (String.eqb x) (switches drv) && on x then Some flag else lookup x M) /\
  toks_of M (switched drv on t) = [] /\ In "dbccodeconf.h" (included (uncomment (switched drv on t))).
Proof. exact config_file. Qed.
Print Assumptions C55_config_switches.

Theorem C55_config_default : forall drv d s fs t, emitted drv d s fs -> In (f_confdir (st_f s) ++ "/" ++ str_tolower drv ++ "-config.h", t) fs ->
  switched drv (fun _ => false) t = t /\ forall M x, lookup x (macros_after M t) = lookup x M.
Proof.
  intros drv d s fs t EM IT. pose proof (config_default drv d s fs t EM IT) as E. split; [exact E|]. intros M x.
  destruct (config_file drv d s fs t EM IT (fun _ => false) M) as [A _]. rewrite <- E at 1. rewrite A, andb_false_r. reflexivity.
Qed.
Print Assumptions C55_config_default.

(** The common configuration declares the two types of the sign extension, as [std_types] has them, and defines no
    macro. *)
Theorem C55_common_types : forall drv d s fs t, emitted drv d s fs -> In (f_confdir (st_f s) ++ "/dbccodeconf.h", t) fs -> forall M,
  macros_after M t = M /\ toks_of M t = lex "typedef uint32_t ubitext_t; typedef int32_t bitext_t;" /\
  std_types "ubitext_t" = std_types "uint32_t" /\ std_types "bitext_t" = std_types "int32_t".
Proof. intros drv d s fs t EM IT M. destruct (dbcconf_file drv d s fs t EM IT M) as [A B]. split; [exact A|]. split; [exact B|]. split; reflexivity. Qed.
Print Assumptions C55_common_types.

(** canmonitorutil.h declares the frame monitor; a struct with these members is what the monitor properties ask for. *)
Theorem C55_frame_monitor : forall drv d s fs t, emitted drv d s fs -> In (f_incdir (st_f s) ++ "/canmonitorutil.h", t) fs -> forall M,
  macros_after M t = M /\ declares (toks_of M t) "FrameMonitor_t" monitor_members /\ forall m, monitor_object m monitor_members -> has_monitor m.
Proof.
  intros drv d s fs t EM IT M. destruct (monutil_file drv d s fs t EM IT M) as [A B]. split; [exact A|]. split; [exact B|]. exact monitor_layout.
Qed.
Print Assumptions C55_frame_monitor.

(** the emitted source and header test these switches *)
Theorem C55_tested_switches : forall drv g d h c, driver drv g d h c ->
  n_usebits g = str_toupper drv ++ "_USE_BITS_SIGNAL" /\ n_usestruct g = str_toupper drv ++ "_USE_CANSTRUCT" /\
  n_usesigfloat g = str_toupper drv ++ "_USE_SIGFLOAT" /\ n_usemon g = str_toupper drv ++ "_USE_DIAG_MONITORS" /\
  n_useroll g = str_toupper drv ++ "_AUTO_ROLL" /\ n_usecsm g = str_toupper drv ++ "_AUTO_CSM" /\ n_usemono g = str_toupper drv ++ "_USE_MONO_FMON" /\
  switches drv = [n_usebits g; n_usestruct g; n_usesigfloat g; n_usemon g; n_useroll g; n_usecsm g; n_usemono g].
Proof.
  intros drv g d h c [RUN [_ DL] _ _]. destruct RUN as (srt & out & date & dbc & hi & low & nc & ni & nf & rest & _ & _ & _ & _ & _ & -> & _).
  assert (LU : String.length (str_toupper drv) = String.length drv) by apply len_map.
  unfold configure. cbn [st_g n_usebits n_usestruct n_usesigfloat n_usemon n_useroll n_usecsm n_usemono].
  rewrite !tmpb_short by (rewrite !app_len, ?LU; cbn [String.length]; lia). repeat split.
Qed.
Print Assumptions C55_tested_switches.

(** ** A run with six messages *)
Definition net_settings : settings := settings_of "Net" net_db.
Lemma net_emitted : emitted "Net" net_db net_settings net_files.
Proof.
  constructor.
  - exists isort, "out", None, "sample.dbc", (d_verhi net_db), (d_verlow net_db), false, false, false.
    split; [apply isort_sorts|]. split; [exact Logic.I|]. split; [reflexivity|]. split; [vm_compute; split; congruence|]. split; [vm_compute; split; congruence|]. split; [reflexivity|].
    vm_compute. reflexivity.
  - split; [reflexivity|]. cbn [String.length]. lia.
  - assert (F : forallb (fun m => is_ident (g_name m) && (String.length (g_name m) <=? 1000)%nat) (d_msgs net_db) = true) by (vm_compute; reflexivity).
    intros m I. rewrite forallb_forall in F. specialize (F m I). apply andb_true_iff in F as [A B]. apply Nat.leb_le in B. auto.
Qed.
Definition file (p : string) : string := match lookup p net_files with Some t => t | None => "" end.
Definition mon_conf (mono : bool) : list (string * macro) := (("NET_USE_DIAG_MONITORS", flag) :: if mono then [("NET_USE_MONO_FMON", flag)] else [])%list.
Definition first_msg : message := nth 0 (d_msgs net_db) no_message.
Example C54_paths : f_fmonh_path (st_f net_settings) = "out/lib/net-fmon.h" /\ f_fmonc_path (st_f net_settings) = "out/usr/net-fmon.c" /\
  map fst net_files = ["out/lib/net.h"; "out/lib/net.c"; "out/lib/net-fmon.h"; "out/usr/net-fmon.c"; "out/conf/net-config.h"; "out/conf/dbccodeconf.h"; "out/inc/canmonitorutil.h"].
Proof. vm_compute. auto. Qed.
Example C54_case : hook_fun "Net" (mon_conf false) first_msg = "_FMon_" ++ g_name first_msg ++ "_net" /\ hook_fun "Net" (mon_conf true) first_msg = "_FMon_MONO_net" /\
  List.length (hook_funs "Net" (mon_conf false) net_db) = 6%nat /\ List.length (hook_funs "Net" (mon_conf true) net_db) = 1%nat /\ hook_funs "Net" [] net_db = [] /\
  List.length (u_funs (compile (mon_conf false) (uncomment (file "out/usr/net-fmon.c")))) = 6%nat /\ List.length (u_funs (compile (mon_conf true) (uncomment (file "out/usr/net-fmon.c")))) = 1%nat.
Proof. vm_compute. auto 10. Qed.
Example C54_case_call : In first_msg (d_msgs net_db) /\ g_notempty first_msg = true /\ monitors_wanted "Net" (mon_conf false) = true /\
  lookup (hook_name "Net" first_msg) (macros_after (mon_conf true) (file "out/lib/net-fmon.h")) = Some (hook_macro "_FMon_MONO_net").
Proof. vm_compute. auto. Qed.
Example C55_case : exists t, In (f_confdir (st_f net_settings) ++ "/" ++ str_tolower "Net" ++ "-config.h", t) net_files /\
  macros_after [] (switched "Net" (fun x => String.eqb x "NET_AUTO_CSM" || String.eqb x "NET_USE_SIGFLOAT") t) = [("NET_AUTO_CSM", flag); ("NET_USE_SIGFLOAT", flag)] /\ macros_after [] t = [].
Proof. exists (file "out/conf/net-config.h"). split; [|vm_compute; auto]. vm_compute. tauto. Qed.
Example C55_case_files : (exists t, In (f_confdir (st_f net_settings) ++ "/dbccodeconf.h", t) net_files) /\ (exists t, In (f_incdir (st_f net_settings) ++ "/canmonitorutil.h", t) net_files).
Proof. split; [exists (file "out/conf/dbccodeconf.h")|exists (file "out/inc/canmonitorutil.h")]; vm_compute; tauto. Qed.
Example C55_case_tested : driver "drv" (e_g sample) (e_db sample) (e_h sample) (e_src sample).
Proof. exact (pr_driver _ sample_program). Qed.
