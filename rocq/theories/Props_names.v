(** Property C52: which macros the core header defines. *)

From Coq Require Import ZArith NArith List String Ascii Bool Lia ZifyBool Permutation.
From Verif Require Import Base Dbl CSyntax CSem CRun Types Formatter Settings MainGen Scanner App CodecSpec MsgSpec PPProof DriverSpec HeaderSpec HeaderRun HeaderTables
  CodecEnv Concrete Samples Props_scan Props_codec NamesSpec HeaderNames NamesThms HeaderFirst.
Import ListNotations.
Open Scope string_scope.

(** ** C52.  Full claim: for every data base, and no macro is defined twice.  Proved for the names and texts that [driver] and
    [header_ok] ask for, the second part when the names built from the data base are different.

    The #define lines of the header, active or not, name exactly the macros of [header_names] (NamesSpec.v): the version, the
    three macros for lengths and initial bytes, the constants of each message, the entries of its value tables and three
    conversions for each name of a scaled signal. *)
Theorem C52_names_partial : forall drv g d h c, driver drv g d h c -> header_ok d ->
  Permutation (defines (lines h)) (header_names (str_toupper drv) d).
Proof. exact driver_names. Qed.
Print Assumptions C52_names_partial.

Theorem C52_each_once_partial : forall drv g d h c x, driver drv g d h c -> header_ok d ->
  NoDup (header_names (str_toupper drv) d) -> In x (header_names (str_toupper drv) d) -> once x h.
Proof. exact names_once. Qed.
Print Assumptions C52_each_once_partial.

(** macros set before the header keep their meaning unless they are among these names *)
Theorem C52_others_kept_partial : forall drv g d h c conf x, driver drv g d h c -> header_ok d ->
  ~ In x (header_names (str_toupper drv) d) -> lookup x (after_header conf h) = lookup x conf.
Proof.
  intros drv g d h c conf x DR HO N. apply HeaderProof.not_defined. intros I. apply N.
  exact (Permutation_in _ (driver_names _ _ _ _ _ DR HO) I).
Qed.
Print Assumptions C52_others_kept_partial.

(** with different names the theorems about programs ([program] in CodecEnv.v) hold for the driver; __ext_sig__ is a function
    of the source, the other local names of its functions cannot clash *)
Theorem C52_program_partial : forall e, driver (e_drv e) (e_g e) (e_db e) (e_h e) (e_src e) -> header_ok (e_db e) ->
  NoDup ("__ext_sig__" :: header_names (str_toupper (e_drv e)) (e_db e)) -> locals_free (e_conf e) -> program e.
Proof. exact names_program. Qed.
Print Assumptions C52_program_partial.

(** ** A run *)
Fixpoint nodupb (l : list string) : bool := match l with [] => true | x :: r => negb (smem x r) && nodupb r end.
Lemma nodupb_ok : forall l, nodupb l = true -> NoDup l.
Proof.
  induction l as [|x r IH]; intros H; [constructor|]. cbn [nodupb] in H. apply andb_true_iff in H. destruct H as [A B].
  constructor; [|auto]. intros I. apply smem_in in I. rewrite I in A. discriminate.
Qed.
Example C52_case : NoDup ("__ext_sig__" :: header_names "DRV" entry_db) /\ List.length (header_names "DRV" entry_db) = 22%nat /\ program sample.
Proof.
  split; [apply nodupb_ok; vm_compute; reflexivity|]. split; [vm_compute; reflexivity|].
  apply C52_program_partial; [exact (pr_driver _ sample_program)|exact (pr_header _ sample_program)|apply nodupb_ok; vm_compute; reflexivity|].
  intros x _. reflexivity.
Qed.

(** ** Clashes *)

(** A message name that ends like a macro of the driver: the DLC constant of the message replaces the macro that limits the
    length, which takes no argument any more. *)
Definition clash_text : string :=
"BO_ 1 DRV_VALIDATE: 8 ECU
 SG_ A : 0|8@1+ (1,0) [0|0] """" GW
BO_ 2 Other: 4 ECU
 SG_ B : 0|8@1+ (1,0) [0|0] """" GW
".
Definition clash_db : dbclist := Eval vm_compute in db_of clash_text.
Definition clash_files : list (string * string) := Eval vm_compute in files_of "drv" clash_db.
Definition clash_h : string := Eval vm_compute in snd (nth 0 clash_files ("", "")).
Definition clash_c : string := Eval vm_compute in snd (nth 1 clash_files ("", "")).
Theorem C52_clash_refuted : exists text d g h c, scan isort text = Ok d /\ driver "drv" g d h c /\ header_ok d /\
  ~ once "DRV_VALIDATE_DLC" h /\ const_macro (after_header [] h) "DRV_VALIDATE_DLC" 8.
Proof.
  exists clash_text, clash_db, (st_g (settings_of "drv" clash_db)), clash_h, clash_c. split; [vm_compute; reflexivity|].
  split; [apply driverb_ok; vm_compute; reflexivity|]. split; [apply header_okb_ok; vm_compute; reflexivity|].
  split; [vm_compute; discriminate|]. eexists. split; vm_compute; reflexivity.
Qed.
Print Assumptions C52_clash_refuted.

(** two tables with the same macro name *)
Definition meet_text : string :=
"BO_ 1 M_X: 8 ECU
 SG_ S : 0|8@1+ (1,0) [0|0] """" GW
BO_ 2 M: 8 ECU
 SG_ S : 0|8@1+ (1,0) [0|0] """" GW
BO_ 3 Other: 4 ECU
 SG_ B : 0|8@1+ (1,0) [0|0] """" GW
VAL_ 1 S 1 ""E"" ;
VAL_ 2 S 2 ""X_E"" ;
".
Definition meet_db : dbclist := Eval vm_compute in db_of meet_text.
Definition meet_files : list (string * string) := Eval vm_compute in files_of "drv" meet_db.
Definition meet_h : string := Eval vm_compute in snd (nth 0 meet_files ("", "")).
Definition meet_c : string := Eval vm_compute in snd (nth 1 meet_files ("", "")).

(** ** C48 for equal names.  Value tables may lead to the same name several times; the macro has the value of the first such entry,
    in the order in which the header lists the messages.  Missing: that this order is the one of the IDs.  [fixed_names] are the
    macros that do not come from value tables. *)
Theorem C48_first_wins_partial : forall drv g d h c conf, driver drv g d h c -> header_ok d ->
  exists ms, Permutation ms (d_msgs d) /\ forall x, In x (flat_map entry_names (d_msgs d)) -> ~ In x (fixed_names (str_toupper drv) d) ->
    lookup x conf = None -> exists v, first_value x ms = Some v /\ int_macro (after_header conf h) x (swrap 32 v).
Proof. exact driver_first. Qed.
Print Assumptions C48_first_wins_partial.
Example C48_first_wins_case : In "S_M_X_E" (flat_map entry_names (d_msgs meet_db)) /\ ~ In "S_M_X_E" (fixed_names "DRV" meet_db) /\
  first_value "S_M_X_E" (d_msgs meet_db) = Some 1%Z.
Proof.
  split; [vm_compute; auto|]. split; [|vm_compute; reflexivity]. intros I. apply smem_in in I. vm_compute in I. discriminate.
Qed.

(** Two entries of value tables whose names meet: the macro keeps the value of the first, 1, also for the second, 2. *)
Theorem C48_meeting_names_refuted : exists text d g h c m sg, scan isort text = Ok d /\ driver "drv" g d h c /\ header_ok d /\
  In m (d_msgs d) /\ In sg (g_sigs m) /\ In ("X_E", 2%Z) (s_valdefs sg) /\ s_name sg ++ "_" ++ g_name m ++ "_X_E" = "S_M_X_E" /\
  int_macro (after_header [] h) "S_M_X_E" 1.
Proof.
  exists meet_text, meet_db, (st_g (settings_of "drv" meet_db)), meet_h, meet_c, (nth 1 (d_msgs meet_db) engine), (hd (hd (Build_signal "" "" "" 0 0 false false (Floats.SpecFloat.S754_nan) (Floats.SpecFloat.S754_nan) Intel false U8 U8 [] [] "" "" MxNone) []) (g_sigs (nth 1 (d_msgs meet_db) engine))).
  split; [vm_compute; reflexivity|].
  split; [apply driverb_ok; vm_compute; reflexivity|]. split; [apply header_okb_ok; vm_compute; reflexivity|].
  split; [vm_compute; auto|]. split; [vm_compute; auto|]. split; [vm_compute; auto|]. split; [reflexivity|].
  eexists; eexists. split; [vm_compute; reflexivity|]. split; [vm_compute; reflexivity|]. intros n c0 m loc. exists I32. destruct n; reflexivity.
Qed.
Print Assumptions C48_meeting_names_refuted.
