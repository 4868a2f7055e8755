(** Property C40: the files of one run fit together. *)

From Coq Require Import ZArith NArith List String Ascii Bool Lia ZifyBool Permutation.
From Verif Require Import Base Dbl CSyntax CSem CRun Types Formatter Settings MainGen UtilGen LineParser Scanner App CodecSpec MsgSpec PPProof
  DriverSpec HeaderSpec CodecEnv CodecThms Concrete Samples Props_scan Props_codec StructSpec UtilSpec UtilThms Props_util GuardSpec GuardProof GuardUtil.
Import ListNotations.
Open Scope string_scope.

(** ** C40.  Full claim: for every data base and set of options.  Proved for the names and texts that [driver],
    [header_ok] and [utility] ask for; false for message names that are no identifiers (C40_call_refuted).

    After the core header no #error of the core source is active: an #if is taken for true unless its condition
    evaluates to zero, so the guard stays silent because its condition is known to be false. *)
Theorem C40_source_guard_partial : forall drv g d h c conf, driver drv g d h c -> header_ok d ->
  errors (after_header conf h) c = [].
Proof. exact source_quiet. Qed.
Print Assumptions C40_source_guard_partial.

(** the same for the sources of the utility drivers of the same data base; both headers before *)
Theorem C40_util_guard_partial : forall drv g d h c who hu cu conf, driver drv g d h c -> header_ok d ->
  utility drv d who hu cu -> n_hi g = d_verhi d -> n_low g = d_verlow d ->
  errors (after_header (after_header conf h) hu) cu = [].
Proof. exact util_quiet. Qed.
Print Assumptions C40_util_guard_partial.

(** every function that a function of the utility source calls is an Unpack function of a message (with different IDs, one
    that the node receives), and the core header has the prototype of that function (if is the only other word in front of a
    parenthesis) *)
Theorem C40_calls_declared_partial : forall drv g d h c who hu cu conf M, driver drv g d h c -> header_ok d ->
  utility drv d who hu cu ->
  forall fd f, In fd (u_funs (compile M cu)) -> In f (call_names (fd_body fd)) ->
  f = "if" \/ exists msg, In msg (d_msgs d) /\ (NoDup (map g_id (d_msgs d)) -> received who msg) /\ f = unpack_name drv msg /\ within (unpack_proto drv msg) (source_toks conf h).
Proof.
  intros drv g d h c who hu cu conf M DR HO U fd f IF IC. destruct (receive_calls drv d who hu cu M U fd f IF IC) as [E|(msg & IM & NE & RC & E)].
  - now left.
  - right. exists msg. split; [exact IM|]. split; [exact RC|]. split; [exact E|]. apply (header_proto drv g d h c conf msg DR HO IM NE).
Qed.
Print Assumptions C40_calls_declared_partial.

(** the source includes the core header; the utility source includes its header, which includes the core header *)
Theorem C40_headers_included_partial : forall drv g d h c who hu cu, driver drv g d h c -> header_ok d -> utility drv d who hu cu ->
  In (str_tolower drv ++ ".h") (included c) /\ In (util_name drv who ++ "-binutil.h") (included cu) /\ In (str_tolower drv ++ ".h") (included hu).
Proof.
  intros drv g d h c who hu cu DR HO U. destruct (util_includes drv d who hu cu U) as [A B]. split; [exact (driver_includes drv g d h c DR HO)|]. split; assumption.
Qed.
Print Assumptions C40_headers_included_partial.

(** ** A run *)
Lemma net_driver : driver "Net" (e_g net) net_db net_h net_c /\ header_ok net_db.
Proof. split; [exact (pr_driver net net_program)|exact (pr_header net net_program)]. Qed.
Example C40_guard_example : errors (after_header [] net_h) net_c = [] /\ errors (after_header (after_header [] net_h) gw_h) gw_c = [].
Proof.
  destruct net_driver as [D H]. split.
  - exact (C40_source_guard_partial _ _ _ _ _ [] D H).
  - exact (C40_util_guard_partial _ _ _ _ _ _ _ _ [] D H gw_utility eq_refl eq_refl).
Qed.
(** the guards do fire with another version of the header *)
Definition other_version : list (string * macro) :=
  (n_verlow (e_g net), {| m_params := None; m_body := lex " (77U)" |}) :: after_header [] net_h.
Example C40_guard_fires : List.length (errors other_version net_c) = 1%nat /\ List.length (errors other_version gw_c) = 1%nat /\ List.length (errors [] net_c) = 1%nat.
Proof. vm_compute. auto. Qed.

Example C40_calls_example : forall conf,
  within (unpack_proto "Net" (net_msg 1)) (source_toks conf net_h) /\
  exists fd, In fd (u_funs (compile [] gw_c)) /\ In (unpack_name "Net" (net_msg 1)) (call_names (fd_body fd)).
Proof.
  intros conf. destruct net_driver as [D H].
  assert (X : exists fd, In fd (u_funs (compile [] gw_c)) /\ In (unpack_name "Net" (net_msg 1)) (call_names (fd_body fd))).
  { exists (nth 0 (u_funs (compile [] gw_c)) {| fd_head := []; fd_body := [] |}). split; [vm_compute; auto|vm_compute; tauto]. }
  split; [|exact X]. destruct X as (fd & F & C).
  destruct (C40_calls_declared_partial _ _ _ _ _ _ _ _ conf [] D H gw_utility fd _ F C) as [E|(msg & IM & _ & E & W)]; [discriminate E|].
  replace msg with (net_msg 1) in W; [exact W|].
  vm_compute in IM. repeat (destruct IM as [<-|IM]; [try (vm_compute in E; discriminate E); vm_compute; reflexivity|]). destruct IM.
Qed.
Example C40_included_example : included net_c = ["net.h"; "net-fmon.h"] /\ included gw_c = ["gw_net-binutil.h"] /\ included gw_h = ["dbccodeconf.h"; "net.h"].
Proof. vm_compute. auto. Qed.

(** ** A message whose name is no identifier, which the scanner accepts *)

Definition dash_text : string :=
"BO_ 291 Torque-Req: 8 ECU
 SG_ Value : 0|8@1+ (1,0) [0|0] """" GW
".
Definition dash_db : dbclist := Eval vm_compute in db_of dash_text.
Definition dash_h : string := Eval vm_compute in snd (nth 0 (files_of "drv" dash_db) ("", "")).
Definition dash_c : string := Eval vm_compute in snd (nth 0 (skipn 1 (util_of "drv" dash_db None)) ("", "")).
(** uint32_t f stands in the list *)
Fixpoint function_in (f : string) (l : list tok) : bool :=
  match l with
  | [] => false
  | TId a :: r => match r with TId b :: _ => String.eqb a "uint32_t" && String.eqb b f | _ => false end || function_in f r
  | _ :: r => function_in f r
  end.
Lemma function_within : forall f l, within [TId "uint32_t"; TId f] l -> function_in f l = true.
Proof.
  intros f l (a & b & ->). induction a as [|t a IH].
  - cbn [List.app function_in]. rewrite !String.eqb_refl. reflexivity.
  - set (r := (a ++ [TId "uint32_t"; TId f] ++ b)%list) in *. change ((t :: a) ++ [TId "uint32_t"; TId f] ++ b)%list with (t :: r).
    destruct t; cbn [function_in]; rewrite IH; auto using orb_true_r.
Qed.
(** Receive calls a function that is neither the Unpack function of a message nor declared in the core header *)
Theorem C40_call_refuted : exists text d h rest cu ph pc hu fd f, scan isort text = Ok d /\
  generate_main isort d (settings_of "drv" d) = Ok ((f_coreh_path (st_f (settings_of "drv" d)), h) :: rest) /\
  generate_util isort d (util_settings "drv" None (settings_of "drv" d)) (util_groups d None) "drv" = [(ph, hu); (pc, cu)] /\
  In fd (u_funs (compile [] cu)) /\ In f (call_names (fd_body fd)) /\ f <> "if" /\
  (forall m, In m (d_msgs d) -> f <> unpack_name "drv" m) /\ ~ within [TId "uint32_t"; TId f] (source_toks [] h).
Proof.
  exists dash_text, dash_db, dash_h. eexists. exists dash_c. eexists. eexists. eexists.
  exists (nth 0 (u_funs (compile [] dash_c)) {| fd_head := []; fd_body := [] |}), "Req_drv".
  split; [vm_compute; reflexivity|]. split; [vm_compute; reflexivity|]. split; [vm_compute; reflexivity|]. split; [vm_compute; auto|]. split; [vm_compute; auto|].
  split; [discriminate|]. split.
  - intros m [<-|[]]. vm_compute. discriminate.
  - intros W. apply function_within in W. vm_compute in W. discriminate W.
Qed.
Print Assumptions C40_call_refuted.
