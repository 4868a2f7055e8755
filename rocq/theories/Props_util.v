(** Properties C24, C25 and C26: the utility files with Receive and the structs of messages. *)

From Coq Require Import ZArith NArith List String Ascii Bool Lia ZifyBool Permutation Sorted.
From Verif Require Import Base Dbl CSyntax CSem CRun Types Formatter Settings MainGen UtilGen LineParser Scanner App CodecSpec MsgSpec PPProof
  DriverSpec HeaderSpec CodecEnv CodecThms CodecFacts Concrete Samples ScanPass1 Props_scan Props_codec StructSpec UtilSpec UtilTree UtilProof UtilThms.
Import ListNotations.
Open Scope string_scope.

(** ** C24.  With the ID of a message of the receive struct, Receive runs that message's Unpack with a pointer to the
    message's member: it returns what Unpack returns, the member is what Unpack leaves, everything else in the
    caller's memory is unchanged (recid is Receive's own variable). *)
Theorem C24_receive_mapped : forall e who h c m msg m1, program e -> utility (e_drv e) (e_db e) who h c -> NoDup (map g_id (d_msgs (e_db e))) ->
  lookup "_id" (after_header (e_conf e) (e_h e)) = None -> lookup "recid" (after_header (e_conf e) (e_h e)) = None ->
  In msg (d_msgs (e_db e)) -> received who msg -> m_scal m "_id" = Some (LInt U32, VI U32 (g_id msg)) ->
  unpack e msg (inside (g_name msg) m) = Ok (m1, Some (VI U32 (g_id msg))) ->
  exists m2, receive e who c m = Ok (m2, Some (VI U32 (g_id msg))) /\
    (forall f, m_scal m2 (sub_path (g_name msg) f) = m_scal m1 ("_m->" ++ f)) /\
    (forall p, p <> "recid" -> strip ("_m->" ++ g_name msg ++ ".") p = None -> m_scal m2 p = m_scal m p) /\
    m_arr m2 = m_arr m.
Proof. exact receive_linked. Qed.
Print Assumptions C24_receive_mapped.

(** so the signals arrive in the member of their message (C01 gives the result of Unpack) *)
Theorem C24_receive_frame : forall e who h c m msg bits d dl tick hash hook pf,
  utility (e_drv e) (e_db e) who h c -> NoDup (map g_id (d_msgs (e_db e))) ->
  lookup "_id" (after_header (e_conf e) (e_h e)) = None -> lookup "recid" (after_header (e_conf e) (e_h e)) = None ->
  received who msg -> m_scal m "_id" = Some (LInt U32, VI U32 (g_id msg)) ->
  receives e msg bits d dl tick hash hook pf (inside (g_name msg) m) -> signed_fit msg ->
  exists m2, receive e who c m = Ok (m2, Some (VI U32 (g_id msg))) /\
    (forall sg, In sg (g_sigs msg) -> s_signed sg = false -> exact_layout sg ->
       int_at m2 (sub_path (g_name msg) (s_name sg)) = Some (raw_value (s_order sg) (s_start sg) (s_len sg) d)) /\
    (forall p, p <> "recid" -> strip ("_m->" ++ g_name msg ++ ".") p = None -> m_scal m2 p = m_scal m p) /\
    m_arr m2 = m_arr m.
Proof.
  intros e who h c m msg bits d dl tick hash hook pf U N L1 L2 RM Ei RC SF.
  destruct (C01_unpack_unsigned_partial _ _ _ _ _ _ _ _ _ _ RC SF) as (m1 & UN & VALS & _).
  destruct (receive_linked e who h c m msg m1 (rc_prog _ _ _ _ _ _ _ _ _ _ RC) U N L1 L2 (proj1 (rc_msg _ _ _ _ _ _ _ _ _ _ RC)) RM Ei UN) as (m2 & R & S & O & A).
  exists m2. split; [exact R|]. split; [|split; assumption].
  intros sg I SG EX. specialize (VALS sg I SG EX). unfold field_is, int_at in *. rewrite S. exact VALS.
Qed.
Print Assumptions C24_receive_frame.

(** with any other ID no function is called, whatever functions there are, and 0 is returned *)
Theorem C24_receive_unmapped : forall drv d who h c n M calls m i, utility drv d who h c -> NoDup (map g_id (d_msgs d)) ->
  (exists msg, In msg (d_msgs d) /\ received who msg) -> lookup "_id" M = None -> lookup "recid" M = None ->
  m_scal m "_id" = Some (LInt U32, VI U32 i) -> (0 <= i < 2 ^ 32)%Z ->
  (forall msg, In msg (d_msgs d) -> received who msg -> g_id msg <> i) ->
  run_receive n M calls drv who c m = Ok (zero_recid m, Some (VI U32 0)).
Proof. exact receive_unmapped. Qed.
Print Assumptions C24_receive_unmapped.

(** *** A driver with five messages and three nodes *)

Definition net_text : string :=
"BO_ 1600 M4: 4 GW
 SG_ D : 0|8@1+ (1,0) [0|0] """" ECU,TCU
BO_ 291 M1: 8 ECU
 SG_ A : 8|16@1+ (1,0) [0|0] """" GW
 SG_ B : 32|4@1- (1,0) [0|0] """" TCU
BO_ 300 M2: 2 TCU
 SG_ C : 0|5@1+ (1,0) [0|0] """" GW,ECU
BO_ 7 Empty: 2 TCU
BO_ 2147483748 M0: 1 ECU
 SG_ E : 0|1@1+ (1,0) [0|0] """" GW
BO_ 1500 M3: 3 TCU
 SG_ F : 4|10@1+ (1,0) [0|0] """" GW,ECU
".
Definition net_db : dbclist := Eval vm_compute in db_of net_text.
Definition net_files : list (string * string) := Eval vm_compute in files_of "Net" net_db.
Definition net_h : string := Eval vm_compute in snd (nth 0 net_files ("", "")).
Definition net_c : string := Eval vm_compute in snd (nth 1 net_files ("", "")).
Definition net : env := the_env 0 "Net" net_db net_h net_c [] no_user no_calls.
Lemma net_program : program net.
Proof. apply programb_ok. vm_compute. reflexivity. Qed.

Definition util_of (drv : string) (d : dbclist) (who : option string) : list (string * string) :=
  generate_util isort d (util_settings drv who (settings_of drv d)) (util_groups d who) drv.
Definition utilityb (drv : string) (d : dbclist) (who : option string) (h c : string) : bool :=
  (0 <=? d_verhi d)%Z && (d_verhi d <? 2 ^ 32)%Z && (0 <=? d_verlow d)%Z && (d_verlow d <? 2 ^ 32)%Z &&
  is_ident drv && (String.length drv <=? 900)%nat && is_ident (util_name drv who) && (String.length (util_name drv who) <=? 2000)%nat &&
  forallb (fun m => is_ident (g_name m) && (String.length (g_name m) <=? 1000)%nat && (0 <=? g_id m)%Z && (g_id m <? 2 ^ 32)%Z) (d_msgs d) &&
  match util_of drv d who with [(_, t1); (_, t2)] => String.eqb t1 h && String.eqb t2 c | _ => false end.
Lemma utilityb_ok : forall drv d who h c, utilityb drv d who h c = true -> utility drv d who h c.
Proof.
  intros drv d who h c H. unfold utilityb in H. apply andb_true_iff in H. destruct H as [H HF]. splitb H. natb.
  unfold util_of in HF. destruct (generate_util _ _ _ _ _) as [|[p1 t1] [|[p2 t2] [|]]] eqn:G; try discriminate.
  apply andb_true_iff in HF. destruct HF as [F1 F2]. apply String.eqb_eq in F1. apply String.eqb_eq in F2. subst t1 t2.
  constructor.
  - exists isort, "out", None, "sample.dbc", false, false, false, p1, p2. cbv zeta. split; [exact isort_sorts_by|]. split; [exact Logic.I|]. split; [reflexivity|].
    split; [lia|]. split; [lia|]. exact G.
  - auto.
  - auto.
  - intros m I. match goal with X : forallb _ _ = true |- _ => rewrite forallb_forall in X; specialize (X m I) as Y end.
    apply andb_true_iff in Y. destruct Y as [Y Y4]. apply andb_true_iff in Y. destruct Y as [Y Y3]. apply andb_true_iff in Y. destruct Y as [Y1 Y2].
    apply Nat.leb_le in Y2. split; [exact Y1|]. split; [exact Y2|lia].
Qed.
Definition net_util (who : option string) (i : nat) : string := snd (nth i (util_of "Net" net_db who) ("", "")).
Definition all_c : string := Eval vm_compute in net_util None 1.
Definition all_h : string := Eval vm_compute in net_util None 0.
Definition gw_c : string := Eval vm_compute in net_util (Some "GW") 1.
Definition gw_h : string := Eval vm_compute in net_util (Some "GW") 0.
Lemma all_utility : utility "Net" net_db None all_h all_c.
Proof. apply utilityb_ok. vm_compute. reflexivity. Qed.
Lemma gw_utility : utility "Net" net_db (Some "GW") gw_h gw_c.
Proof. apply utilityb_ok. vm_compute. reflexivity. Qed.
Lemma net_ids : NoDup (map g_id (d_msgs net_db)).
Proof.
  change (map g_id (d_msgs net_db)) with [1600; 291; 300; 7; 100; 1500]%Z.
  repeat (apply NoDup_cons; [cbn; intuition discriminate|]). apply NoDup_nil.
Qed.
Definition net_msg (i : nat) : message := nth i (d_msgs net_db) no_message.

(** the caller's memory: the struct of all messages, the ID and the frame *)
Definition net_mem (i : Z) (d : list Z) : mem :=
  mk_mem (("_id", (LInt U32, VI U32 i)) :: dlc_obj 8 ::
     flat_map (fun m => map (fun sg => (sub_path (g_name m) (s_name sg), (field_ty false sg, VI (s_typero sg) 3))) (g_sigs m)) (d_msgs net_db))%list "_d" d.
Lemma net_receives : receives net (net_msg 1) false [0; 52; 18; 255; 9; 0; 0; 0]%Z 8 0 no_hash no_hook no_phys
  (inside (g_name (net_msg 1)) (net_mem 291 [0; 52; 18; 255; 9; 0; 0; 0]%Z)).
Proof.
  constructor.
  - exact net_program.
  - split; [vm_compute; auto|reflexivity].
  - split; [split; [reflexivity|]|split].
    + intros q Q. cbn [inside m_arr]. destruct (String.eqb_spec q "_d"); [contradiction|reflexivity].
    + intros x X. unfold is_byte. cbn in X. intuition subst; lia.
    + vm_compute. discriminate.
  - split; [reflexivity|lia].
  - apply has_structb_ok. vm_compute. reflexivity.
  - intros F. vm_compute in F. discriminate.
  - intros F. vm_compute in F. discriminate.
Qed.
Example C24_example : exists m2, receive net (Some "GW") gw_c (net_mem 291 [0; 52; 18; 255; 9; 0; 0; 0]%Z) = Ok (m2, Some (VI U32 291)) /\
  int_at m2 "_m->M1.A" = Some 4660%Z /\ int_at m2 "_m->M2.C" = Some 3%Z.
Proof.
  destruct (C24_receive_frame net (Some "GW") gw_h gw_c (net_mem 291 [0; 52; 18; 255; 9; 0; 0; 0]%Z) (net_msg 1) false
    [0; 52; 18; 255; 9; 0; 0; 0]%Z 8 0 no_hash no_hook no_phys gw_utility net_ids) as (m2 & R & V & O & _).
  - vm_compute. reflexivity.
  - vm_compute. reflexivity.
  - split; [reflexivity|]. vm_compute. auto.
  - reflexivity.
  - exact net_receives.
  - intros sg I S. vm_compute in I. destruct I as [<-|[<-|[]]]; vm_compute in S |- *; discriminate.
  - exists m2. split; [exact R|]. split.
    + assert (I0 : In (sig_at (net_msg 1) 0) (g_sigs (net_msg 1))) by (vm_compute; auto).
      specialize (V _ I0 eq_refl). assert (EX : exact_layout (sig_at (net_msg 1) 0)) by (vm_compute; auto).
      specialize (V EX). vm_compute in V. vm_compute. exact V.
    + assert (X : m_scal m2 "_m->M2.C" = m_scal (net_mem 291 [0; 52; 18; 255; 9; 0; 0; 0]%Z) "_m->M2.C") by (apply O; [discriminate|vm_compute; reflexivity]).
      unfold int_at. rewrite X. vm_compute. reflexivity.
Qed.
Example C24_unmapped_example : forall calls i, (0 <= i < 2 ^ 32)%Z -> ~ In i [100; 291; 300; 1500; 1600]%Z ->
  run_receive 2 [] calls "Net" None all_c (net_mem i [1]%Z) = Ok (zero_recid (net_mem i [1]%Z), Some (VI U32 0)).
Proof.
  intros calls i I N. apply (C24_receive_unmapped "Net" net_db None all_h all_c 2 [] calls (net_mem i [1]%Z) i all_utility net_ids); auto.
  - exists (net_msg 1). split; [vm_compute; auto|]. split; [reflexivity|exact Logic.I].
  - intros msg IM [NE _] E. apply N. rewrite <- E. vm_compute in IM. 
    repeat (destruct IM as [<-|IM]; [try (vm_compute in NE; discriminate); vm_compute; tauto|]). destruct IM.
Qed.

(** ** C25.  With different IDs every message of the receive struct is reached: with its ID, Receive calls its Unpack
    function, whatever that function does, and returns its result.  Missing: a standard and an extended frame with
    the same number, see below. *)
Theorem C25_every_message_reached_partial : forall drv d who h c n M calls m msg f m' v, utility drv d who h c -> NoDup (map g_id (d_msgs d)) ->
  In msg (d_msgs d) -> received who msg -> lookup "_id" M = None -> lookup "recid" M = None ->
  m_scal m "_id" = Some (LInt U32, VI U32 (g_id msg)) ->
  calls (unpack_name drv msg) = Some f -> f (unpack_args msg) (zero_recid m) = Ok (m', VI U32 v) -> (0 <= v < 2 ^ 32)%Z ->
  m_scal m' "recid" = Some (LInt U32, VI U32 0) ->
  run_receive n M calls drv who c m = Ok (set_scal m' "recid" (LInt U32, VI U32 v), Some (VI U32 v)).
Proof.
  intros drv d who h c n M calls m msg f m' v U N IM RM L1 L2 Ei. destruct (ut_msgs _ _ _ _ _ U msg IM) as (_ & _ & R).
  intros. eapply receive_mapped; eauto.
Qed.
Print Assumptions C25_every_message_reached_partial.
Example C25_example : forall f m' v, f (unpack_args (net_msg 4)) (zero_recid (net_mem 100 [1]%Z)) = Ok (m', VI U32 v) -> (0 <= v < 2 ^ 32)%Z ->
  m_scal m' "recid" = Some (LInt U32, VI U32 0) ->
  run_receive 0 [] (fun x => if String.eqb x "Unpack_M0_Net" then Some f else None) "Net" (Some "GW") gw_c (net_mem 100 [1]%Z) =
  Ok (set_scal m' "recid" (LInt U32, VI U32 v), Some (VI U32 v)).
Proof.
  intros f m' v F V R. eapply (C25_every_message_reached_partial "Net" net_db (Some "GW") gw_h gw_c 0 [] _ (net_mem 100 [1]%Z) (net_msg 4) f m' v gw_utility net_ids); auto.
  - vm_compute. tauto.
  - split; [reflexivity|]. vm_compute. auto.
Qed.

(** A standard and an extended frame with the number 5: the receive struct has a member for the extended one, but
    whatever its Unpack function does, Receive does the same for every ID. *)
Definition same_text : string :=
"BO_ 5 Std: 8 ECU
 SG_ A : 8|16@1+ (1,0) [0|0] """" GW
BO_ 2147483653 Ext: 8 ECU
 SG_ B : 8|16@1+ (1,0) [0|0] """" GW
".
Definition same_db : dbclist := Eval vm_compute in db_of same_text.
Definition same_files : list (string * string) := Eval vm_compute in files_of "dup" same_db.
Definition same_h : string := Eval vm_compute in snd (nth 0 same_files ("", "")).
Definition same_c : string := Eval vm_compute in snd (nth 1 same_files ("", "")).
Definition same_env : env := the_env 0 "dup" same_db same_h same_c [] no_user no_calls.
Lemma same_program : program same_env.
Proof. apply programb_ok. vm_compute. reflexivity. Qed.
Definition same_util_h : string := Eval vm_compute in snd (nth 0 (util_of "dup" same_db None) ("", "")).
Definition same_util_c : string := Eval vm_compute in snd (nth 1 (util_of "dup" same_db None) ("", "")).
Lemma same_utility : utility "dup" same_db None same_util_h same_util_c.
Proof. apply utilityb_ok. vm_compute. reflexivity. Qed.

Definition same_body : list stmt := [s_recid;
  SIf (eq_e (nth 0 (d_msgs same_db) no_message)) (SBlock [call_s "dup" (nth 0 (d_msgs same_db) no_message)])
    (Some (SIf (eq_e (nth 1 (d_msgs same_db) no_message)) (SBlock [call_s "dup" (nth 1 (d_msgs same_db) no_message)]) None)); s_ret].
Definition same_macros : list (string * macro) := u_macros (compile (after_header [] same_h) same_util_c).
Lemma same_run : forall n calls m, run_receive n (after_header [] same_h) calls "dup" None same_util_c m = exec_list n (util_ctx same_macros calls) m same_body.
Proof.
  intros n calls m.
  assert (F : exists fd, find_fun "dup_Receive" (u_funs (compile (after_header [] same_h) same_util_c)) = Some fd /\ parse_stmts (fd_body fd) = Some same_body).
  { eexists. split; vm_compute; reflexivity. }
  destruct F as (fd & F & P). unfold run_receive. cbv zeta. unfold run_fun.
  change (util_name "dup" None ++ "_Receive") with "dup_Receive". rewrite F, P. reflexivity.
Qed.
Lemma same_no_id : lookup "_id" same_macros = None.
Proof. vm_compute. reflexivity. Qed.
Lemma same_no_recid : lookup "recid" same_macros = None.
Proof. vm_compute. reflexivity. Qed.
Lemma same_tree : forall n calls m i, m_scal m "_id" = Some (LInt U32, VI U32 i) -> (0 <= i < 2 ^ 32)%Z ->
  exec n (util_ctx same_macros calls) m (nth 1 same_body (SBlock [])) =
  if (i =? 5)%Z then exec n (util_ctx same_macros calls) m (call_s "dup" (nth 0 (d_msgs same_db) no_message)) else Ok (m, None).
Proof.
  intros n calls m i E I. change (nth 1 same_body (SBlock [])) with
    (SIf (eq_e (nth 0 (d_msgs same_db) no_message)) (SBlock [call_s "dup" (nth 0 (d_msgs same_db) no_message)])
      (Some (SIf (eq_e (nth 1 (d_msgs same_db) no_message)) (SBlock [call_s "dup" (nth 1 (d_msgs same_db) no_message)]) None))).
  rewrite (exec_if n _ m _ _ _ (i =? 5)%Z) by (exact (eval_eq n (util_ctx same_macros calls) same_no_id m i (nth 0 (d_msgs same_db) no_message) E I ltac:(cbn; lia))).
  destruct (i =? 5)%Z eqn:Q; [reflexivity|].
  rewrite (exec_if n _ m _ _ _ (i =? 5)%Z) by (exact (eval_eq n (util_ctx same_macros calls) same_no_id m i (nth 1 (d_msgs same_db) no_message) E I ltac:(cbn; lia))).
  rewrite Q. reflexivity.
Qed.
Lemma same_call : forall n calls calls' m, calls "Unpack_Std_dup" = calls' "Unpack_Std_dup" ->
  exec n (util_ctx same_macros calls) m (call_s "dup" (nth 0 (d_msgs same_db) no_message)) =
  exec n (util_ctx same_macros calls') m (call_s "dup" (nth 0 (d_msgs same_db) no_message)).
Proof.
  intros n calls calls' m E. unfold call_s. cbn [exec exec_expr util_ctx c_calls].
  change (unpack_name "dup" (nth 0 (d_msgs same_db) no_message)) with "Unpack_Std_dup". rewrite E.
  assert (A : forall m' v, assign n (util_ctx same_macros calls) m' (EId "recid") v = assign n (util_ctx same_macros calls') m' (EId "recid") v) by reflexivity.
  destruct (calls' "Unpack_Std_dup") as [g|].
  - destruct (g _ m) as [[m' v]| |]; cbn [bind]; [rewrite A|..]; reflexivity.
  - assert (V : eval n (util_ctx same_macros calls) m [] (ECall "Unpack_Std_dup" (unpack_args (nth 0 (d_msgs same_db) no_message))) =
      eval n (util_ctx same_macros calls') m [] (ECall "Unpack_Std_dup" (unpack_args (nth 0 (d_msgs same_db) no_message)))) by (destruct n; reflexivity).
    rewrite V. reflexivity.
Qed.
Lemma same_return : forall n calls calls' m, exec_list n (util_ctx same_macros calls) m [s_ret] = exec_list n (util_ctx same_macros calls') m [s_ret].
Proof.
  intros n calls calls' m. destruct (m_scal m "recid") as [v|] eqn:E.
  - now rewrite !(exec_ret n same_macros _ m v same_no_recid E).
  - unfold s_ret. cbn [exec_list exec].
    assert (X : forall cs, eval n (util_ctx same_macros cs) m [] (EId "recid") = eval n (util_ctx same_macros no_calls) m [] (EId "recid")) by (intros; destruct n; reflexivity).
    rewrite (X calls), (X calls'). reflexivity.
Qed.

Theorem C25_every_message_reached_refuted : exists e h c msg, program e /\ utility (e_drv e) (e_db e) None h c /\ clean h /\
  In msg (d_msgs (e_db e)) /\ received None msg /\
  (forall M, exists ms, declares (text_toks M h) (util_name (e_drv e) None ++ "_rx_t") ms /\ In (slot msg) ms) /\
  forall n calls calls' m i, (forall x, x <> unpack_name (e_drv e) msg -> calls x = calls' x) ->
    m_scal m "_id" = Some (LInt U32, VI U32 i) -> (0 <= i < 2 ^ 32)%Z ->
    run_receive n (after_header (e_conf e) (e_h e)) calls (e_drv e) None c m =
    run_receive n (after_header (e_conf e) (e_h e)) calls' (e_drv e) None c m.
Proof.
  exists same_env, same_util_h, same_util_c, (nth 1 (d_msgs same_db) no_message).
  assert (CL : clean same_util_h) by (vm_compute; reflexivity).
  split; [exact same_program|]. split; [exact same_utility|]. split; [exact CL|].
  split; [vm_compute; auto|]. split; [split; [reflexivity|exact Logic.I]|]. split.
  - intros M. destruct (header_declares _ _ _ _ _ M same_utility CL) as (rx & tx & P & _ & _ & _ & D & _).
    assert (I : In (nth 1 (d_msgs same_db) no_message) rx) by (eapply Permutation_in; [apply Permutation_sym; exact P|vm_compute; auto]).
    exists (map slot rx). split; [apply D; destruct rx; [destruct I|discriminate]|now apply in_map].
  - intros n calls calls' m i A E I. change (e_drv same_env) with "dup". change (e_conf same_env) with (@nil (string * macro)). change (e_h same_env) with same_h.
    rewrite !same_run. unfold same_body.
    rewrite !(exec_cons_ok _ _ _ _ _ _ (exec_recid n same_macros _ m)).
    assert (E' : m_scal (zero_recid m) "_id" = Some (LInt U32, VI U32 i)) by (rewrite id_kept; exact E).
    rewrite !exec_cons_bind.
    pose proof (same_tree n calls (zero_recid m) i E' I) as T1. pose proof (same_tree n calls' (zero_recid m) i E' I) as T2. cbn [same_body nth] in T1, T2.
    rewrite T1, T2. rewrite (same_call n calls calls') by (apply A; discriminate).
    match goal with |- bind ?x _ = _ => generalize x end. intros [[m' [v|]]| |]; try reflexivity. apply same_return.
Qed.
Print Assumptions C25_every_message_reached_refuted.

(** ** C26.  The receive struct of a node lists exactly the non-empty messages that the node receives, the transmit struct
    exactly those that it sends, both in the order of the CAN IDs; [None] stands for the utilities of the whole driver. *)
Theorem C26_structs_of_messages : forall drv d who h c M, utility drv d who h c -> clean h -> NoDup (map g_id (d_msgs d)) -> exists rx tx,
  (forall m, In m rx <-> In m (d_msgs d) /\ received who m) /\ StronglySorted (fun a b => (g_id a < g_id b)%Z) rx /\
  (forall m, In m tx <-> In m (d_msgs d) /\ sent who m) /\ StronglySorted (fun a b => (g_id a < g_id b)%Z) tx /\
  (rx <> [] -> declares (text_toks M h) (util_name drv who ++ "_rx_t") (map slot rx)) /\
  (tx <> [] -> declares (text_toks M h) (util_name drv who ++ "_tx_t") (map slot tx)).
Proof.
  intros drv d who h c M U CL N. destruct (header_declares _ _ _ _ _ M U CL) as (rx & tx & P1 & S1 & P2 & S2 & D1 & D2). exists rx, tx.
  assert (ST : forall l k, Permutation l k -> NoDup (map g_id k) -> StronglySorted (fun a b => (g_id a <= g_id b)%Z) l -> StronglySorted (fun a b => (g_id a < g_id b)%Z) l).
  { intros l k P NK S. assert (NL : NoDup (map g_id l)) by (eapply Permutation_NoDup; [apply Permutation_map, Permutation_sym; exact P|exact NK]).
    clear - S NL. induction S as [|a l S IH F]; constructor.
    - apply IH. now inversion NL.
    - inversion NL as [|y ys NI N']; subst. rewrite Forall_forall in F |- *. intros b B. specialize (F b B).
      assert (g_id a <> g_id b) by (intros E; apply NI; rewrite E; now apply in_map). lia. }
  split; [|split; [|split; [|split; [|split; assumption]]]].
  - intros m. rewrite <- (rx_of_in d who m N). split; apply Permutation_in; [exact P1|now apply Permutation_sym].
  - apply (ST rx (rx_of d who)); auto. now apply nodup_filter.
  - intros m. rewrite <- (tx_of_in d who m N). split; apply Permutation_in; [exact P2|now apply Permutation_sym].
  - apply (ST tx (tx_of d who)); auto. now apply nodup_filter.
Qed.
Print Assumptions C26_structs_of_messages.

Lemma names_nodup : forall ms l, NoDup l -> NoDup (fold_left (fun l m => fold_left add_new (g_recs m) (fold_left add_new (g_trans m) l)) ms l).
Proof. induction ms as [|m ms IH]; intros l N; cbn [fold_left]; auto. apply IH. now apply union_nodup, union_nodup. Qed.
Lemma names_in : forall ms l n, In n (fold_left (fun l m => fold_left add_new (g_recs m) (fold_left add_new (g_trans m) l)) ms l) <->
  In n l \/ exists m, In m ms /\ (In n (g_trans m) \/ In n (g_recs m)).
Proof.
  induction ms as [|m ms IH]; intros l n; cbn [fold_left].
  - split; [auto|]. intros [X|(m & [] & _)]. exact X.
  - rewrite IH, !union_in. split.
    + intros [[[X|X]|X]|(k & I & X)]; [auto|right; exists m; cbn; auto|right; exists m; cbn; auto|right; exists k; cbn; auto].
    + intros [X|(k & [<-|I] & X)]; [auto|tauto|right; exists k; auto].
Qed.

(** with -nodeutils there is one pair of files for each node that sends or receives a message, and no other file *)
Theorem C26_nodes : forall srt d s drv, exists nodes, NoDup nodes /\
  (forall n, In n nodes <-> exists m, In m (d_msgs d) /\ (In n (g_trans m) \/ In n (g_recs m))) /\
  util_files srt d s true drv = flat_map (fun n => generate_util srt d (util_settings drv (Some n) s) (util_groups d (Some n)) drv) nodes.
Proof.
  intros srt d s drv. exists (node_names (d_msgs d)). unfold util_files. split; [|split; [|reflexivity]].
  - unfold node_names. apply names_nodup. constructor.
  - intros n. unfold node_names. rewrite names_in. split.
    + intros [[]|X]. exact X.
    + intros X. right. exact X.
Qed.
Print Assumptions C26_nodes.

Lemma sorted_eq : forall A (key : A -> Z) l k, StronglySorted (fun a b => (key a < key b)%Z) l -> StronglySorted (fun a b => (key a < key b)%Z) k ->
  (forall x, In x l <-> In x k) -> l = k.
Proof.
  intros A key l k S. revert k. induction S as [|a l S IH F]; intros k SK E.
  - destruct k as [|b k]; [reflexivity|]. destruct (proj2 (E b) (or_introl eq_refl)).
  - destruct SK as [|b k SK FK]; [destruct (proj1 (E a) (or_introl eq_refl))|]. rewrite Forall_forall in F, FK.
    assert (a = b).
    { destruct (proj1 (E a) (or_introl eq_refl)) as [X|X]; [auto|]. destruct (proj2 (E b) (or_introl eq_refl)) as [Y|Y]; [auto|].
      specialize (F _ Y). specialize (FK _ X). lia. }
    subst b. f_equal. apply IH; [exact SK|]. intros x. specialize (E x). cbn in E. split; intros X.
    + destruct (proj1 E (or_intror X)) as [<-|Y]; [|exact Y]. specialize (F _ X). lia.
    + destruct (proj2 E (or_intror X)) as [<-|Y]; [|exact Y]. specialize (FK _ X). lia.
Qed.
Definition message_names (l : list message) : list string := map g_name l.
Example C26_example : forall M, exists rx tx, declares (text_toks M gw_h) "gw_net_rx_t" (map slot rx) /\ declares (text_toks M gw_h) "gw_net_tx_t" (map slot tx) /\
  message_names rx = ["M0"; "M1"; "M2"; "M3"] /\ message_names tx = ["M4"].
Proof.
  intros M. destruct (C26_structs_of_messages "Net" net_db (Some "GW") gw_h gw_c M gw_utility) as (rx & tx & R1 & R2 & T1 & T2 & D1 & D2).
  - vm_compute. reflexivity.
  - exact net_ids.
  - assert (RX : rx = [net_msg 4; net_msg 1; net_msg 2; net_msg 5]).
    { apply (sorted_eq _ g_id); [exact R2| |].
      - repeat (constructor; [|repeat (constructor; [vm_compute; reflexivity|]); constructor]). constructor.
      - intros m. rewrite R1. split.
        + intros [I [NE RC]]. vm_compute in I. repeat (destruct I as [<-|I]; [try (vm_compute in NE; discriminate); vm_compute in RC; vm_compute; intuition discriminate|]). destruct I.
        + intros I. vm_compute in I. repeat (destruct I as [<-|I]; [split; [vm_compute; tauto|split; [reflexivity|vm_compute; tauto]]|]). destruct I. }
    assert (TX : tx = [net_msg 0]).
    { apply (sorted_eq _ g_id); [exact T2| |].
      - repeat constructor.
      - intros m. rewrite T1. split.
        + intros [I [NE RC]]. vm_compute in I. repeat (destruct I as [<-|I]; [try (vm_compute in NE; discriminate); vm_compute in RC; vm_compute; intuition discriminate|]). destruct I.
        + intros I. vm_compute in I. repeat (destruct I as [<-|I]; [split; [vm_compute; tauto|split; [reflexivity|vm_compute; tauto]]|]). destruct I. }
    exists rx, tx. subst rx tx. split; [apply D1; discriminate|]. split; [apply D2; discriminate|]. split; vm_compute; reflexivity.
Qed.
Example C26_nodes_example : node_names (d_msgs net_db) = ["GW"; "ECU"; "TCU"].
Proof. vm_compute. reflexivity. Qed.

Definition foreign_text : string :=
"BO_ 5 Std: 8 ECU
 SG_ A : 8|16@1+ (1,0) [0|0] """" GW
BO_ 2147483653 Ext: 8 ECU
 SG_ B : 8|16@1+ (1,0) [0|0] """" TCU
".
Definition foreign_db : dbclist := Eval vm_compute in db_of foreign_text.
Definition foreign_h : string := Eval vm_compute in snd (nth 0 (util_of "dup" foreign_db (Some "GW")) ("", "")).
Definition foreign_c : string := Eval vm_compute in snd (nth 1 (util_of "dup" foreign_db (Some "GW")) ("", "")).
Lemma foreign_utility : utility "dup" foreign_db (Some "GW") foreign_h foreign_c.
Proof. apply utilityb_ok. vm_compute. reflexivity. Qed.

(** With equal IDs a node's struct can contain a message that the node does not receive. *)
Theorem C26_equal_ids_refuted : exists drv d n h c msg, utility drv d (Some n) h c /\ In msg (d_msgs d) /\ ~ received (Some n) msg /\
  forall M, exists ms, declares (text_toks M h) (util_name drv (Some n) ++ "_rx_t") ms /\ In (slot msg) ms.
Proof.
  exists "dup", foreign_db, "GW", foreign_h, foreign_c, (nth 1 (d_msgs foreign_db) no_message).
  split; [exact foreign_utility|]. split; [vm_compute; auto|]. split.
  - intros [_ X]. vm_compute in X. intuition discriminate.
  - intros M. assert (CL : clean foreign_h) by (vm_compute; reflexivity).
    destruct (header_declares _ _ _ _ _ M foreign_utility CL) as (rx & tx & P & _ & _ & _ & D & _).
    assert (I : In (nth 1 (d_msgs foreign_db) no_message) rx) by (eapply Permutation_in; [apply Permutation_sym; exact P|vm_compute; auto]).
    exists (map slot rx). split; [apply D; destruct rx; [destruct I|discriminate]|now apply in_map].
Qed.
Print Assumptions C26_equal_ids_refuted.
