(** Property C62: the identification of declared messages in the generated code. *)

From Coq Require Import ZArith NArith List String Ascii Bool Lia ZifyBool Permutation.
From Verif Require Import Base Dbl CSyntax CSem CRun Types Formatter Settings MainGen Scanner App LexLemmas PPProof CodecSpec MsgSpec DriverSpec HeaderSpec HeaderRun
  ScanSpec ScanThms SigSpec NamesSpec CodecEnv Concrete Samples DeclSpec DeclThms CmpSpec IdentProof Props_sigline Props_scan Props_decl Props_cmp.
Import ListNotations.
Open Scope string_scope.

(** ** C62.  Full claim: the macros Name_DLC, Name_CANID, Name_IDE and Name_CYC have the numbers that the DBC file declares for the
    message, and Pack reports the identifier without its flags, the length and the kind of the identifier.

    Proved for files that [project] describes: the names of the header are different.  Cycle times are
    those declared up to 2^32 - 1, larger ones are refuted below.  Packing of messages with signals, here without conversion; Props_cmpphys.v has it switched on. *)
Theorem C62_consts_partial : forall srt bs e md, project srt bs e -> In md (file_msgs bs) ->
  let M := after_header (e_conf e) (e_h e) in
  const_macro M (md_name md ++ "_DLC") (Z.of_N (md_dlc md)) /\ const_macro M (md_name md ++ "_CANID") (frame_id md) /\
  const_macro M (md_name md ++ "_IDE") (if N.testbit (md_id md) 31 then 1 else 0)%Z.
Proof. exact declared_consts. Qed.
Print Assumptions C62_consts_partial.

(** the last cycle time that the file gives for the identifier *)
Theorem C62_cycle_partial : forall srt bs e es a k n b md, project srt bs e -> read_entries srt (file_text bs) (e_db e) es -> In md (file_msgs bs) ->
  es = (a ++ ECycle k n :: b)%list -> plain_id k = plain_id (md_id md) -> (forall k' c, In (ECycle k' c) b -> plain_id k' <> plain_id k) -> (0 < n < 2 ^ 31)%N ->
  const_macro (after_header (e_conf e) (e_h e)) (md_name md ++ "_CYC") (Z.of_N n).
Proof. exact declared_cycle. Qed.
Print Assumptions C62_cycle_partial.

(** the value in an expression, for every cycle time: the number modulo 2^32, so the declared number up to 2^32 - 1 *)
Theorem C62_cycle_value_partial : forall srt bs e es a k n b md, project srt bs e -> read_entries srt (file_text bs) (e_db e) es -> In md (file_msgs bs) ->
  es = (a ++ ECycle k n :: b)%list -> plain_id k = plain_id (md_id md) -> (forall k' c, In (ECycle k' c) b -> plain_id k' <> plain_id k) -> (n mod 2 ^ 32 <> 0)%N ->
  forall j C mm, c_macros C = after_header (e_conf e) (e_h e) -> eval (S j) C mm [] (EId (md_name md ++ "_CYC")) = Ok (VI U32 (Z.of_N (n mod 2 ^ 32))).
Proof. exact declared_cycle_value. Qed.
Print Assumptions C62_cycle_value_partial.

(** a message without a cycle time has no such macro, unless an entry of a value table has the name *)
Theorem C62_uncycled_partial : forall srt bs e es md, project srt bs e -> read_entries srt (file_text bs) (e_db e) es -> In md (file_msgs bs) ->
  (forall k c, In (ECycle k c) es -> plain_id k <> plain_id (md_id md)) ->
  (forall m, In m (d_msgs (e_db e)) -> ~ In (md_name md ++ "_CYC") (entry_names m)) ->
  lookup (md_name md ++ "_CYC") (after_header (e_conf e) (e_h e)) = lookup (md_name md ++ "_CYC") (e_conf e).
Proof. exact declared_uncycled. Qed.
Print Assumptions C62_uncycled_partial.

Theorem C62_reports_partial : forall srt bs e md bits mx data hash mm, project srt bs e -> floats_on e = false ->
  In md (file_msgs bs) -> md_sigs md <> [] -> pack_call e bits md mx data mm -> computing e bits md hash mm ->
  exists mm', pack_decl e md mm = Ok (mm', Some (VI U32 (frame_id md))) /\
    let ide := (if N.testbit (md_id md) 31 then 1 else 0)%Z in
    if struct_on e
    then int_at mm' "cframe->MsgId" = Some (frame_id md) /\ int_at mm' "cframe->DLC" = Some (Z.of_N (md_dlc md)) /\ int_at mm' "cframe->IDE" = Some ide
    else int_at mm' "*_len" = Some (Z.of_N (md_dlc md)) /\ int_at mm' "*_ide" = Some ide.
Proof. exact declared_reports. Qed.
Print Assumptions C62_reports_partial.

(** an extended identifier: 2147483939 is 291 with bit 31 *)
Example C62_case : project isort two_blocks two /\ In engine_decl (file_msgs two_blocks) /\ md_id engine_decl = 2147483939%N /\
  const_macro (after_header [] two_h) "Engine_CANID" 291 /\ const_macro (after_header [] two_h) "Engine_IDE" 1 /\ const_macro (after_header [] two_h) "Engine_DLC" 8 /\
  pack_call two true engine_decl 8 (repeat 170%Z 8) two_tx /\ computing two true engine_decl (fun _ => 0%Z) two_tx /\ struct_on two = false /\
  exists mm', pack_decl two engine_decl two_tx = Ok (mm', Some (VI U32 291)) /\ int_at mm' "*_len" = Some 8%Z /\ int_at mm' "*_ide" = Some 1%Z.
Proof.
  destruct C53_project as (P & F & MO & UN). destruct C53_pack_case as (K & _).
  split; [exact P|]. split; [now left|]. split; [reflexivity|]. split; [eexists; split; vm_compute; reflexivity|]. split; [eexists; split; vm_compute; reflexivity|].
  split; [eexists; split; vm_compute; reflexivity|]. split; [exact K|]. split; [apply (C53_basic two true engine_decl (fun _ => 0%Z) two_tx MO UN)|]. split; [vm_compute; reflexivity|].
  eexists. split; [vm_compute; reflexivity|]. split; vm_compute; reflexivity.
Qed.

(** cycle times, one too large *)
Definition slow : msgdecl := {| md_id := 9; md_name := "Slow"; md_dlc := 1; md_tx := "ECU"; md_sigs := [plain_sig "Rest" 0 4] |}.
Definition timed_head : list block := (table_head ++ [BMsg slow])%list.
Definition timed_tail : list entry := [ECycle 7 50; ECycle 7 20; ECycle 9 4000000000; ECycle 8 4294967296].
Definition timed_blocks : list block := (timed_head ++ map BLine (file_lines timed_tail))%list.
Definition timed_list : list entry := (map EOther (flat_map block_lines timed_head) ++ timed_tail)%list.
Definition timed_db : dbclist := Eval vm_compute in db_of (file_text timed_blocks).
Definition timed_files : list (string * string) := Eval vm_compute in files_of "drv" timed_db.
Definition timed_h : string := Eval vm_compute in snd (nth 0 timed_files ("", "")).
Definition timed_c : string := Eval vm_compute in snd (nth 1 timed_files ("", "")).
Definition timed : env := the_env 0 "drv" timed_db timed_h timed_c [] no_user no_calls.
Lemma timed_project : project isort timed_blocks timed.
Proof.
  constructor.
  - apply isort_sorts.
  - assert (O : forall l, lacks NL l && negb (String.prefix "BO_ " l) && (negb (mentions "SG_" l) || negb (spaced_colon l)) = true -> other_line l).
    { intros l H. unfold other_line. destruct (lacks NL l), (String.prefix "BO_ " l), (mentions "SG_" l), (spaced_colon l); cbn in H; try discriminate; auto. }
    assert (NN : forall s, negb (String.eqb s "") && all_chars node_char s = true -> node_name s).
    { intros s H. apply andb_true_iff in H as [H1 H2]. split; auto. intros ->. discriminate. }
    intros b B. apply in_app_iff in B as [B|B]; [apply in_app_iff in B as [B|[<-|[]]]; [apply (pj_blocks _ _ _ table_project b), in_app_iff; now left|]|].
    + constructor; cbn [md_id md_name md_dlc md_tx md_sigs slow]; [vm_compute; reflexivity|split; [vm_compute; reflexivity|split; [vm_compute; reflexivity|lia]]|apply NN; reflexivity|apply NN; reflexivity|].
      intros s [<-|[]]. apply plain_ok; [apply NN; reflexivity|vm_compute; reflexivity|vm_compute; reflexivity].
    + repeat destruct B as [<-|B]; try contradiction; cbn [block_ok]; apply O; vm_compute; reflexivity.
  - intros m [<-|[<-|[<-|[]]]]; apply fitsb_ok; vm_compute; reflexivity.
  - apply nodupb_ok. vm_compute. reflexivity.
  - vm_compute. reflexivity.
  - exact (dr_run _ _ _ _ _ (driverb_ok "drv" timed_db timed_h timed_c ltac:(vm_compute; reflexivity))).
  - vm_compute. split; [reflexivity|lia].
  - intros m M. apply entriesb_ok. revert m M. apply forallb_forall. vm_compute. reflexivity.
  - apply nodupb_ok. vm_compute. reflexivity.
  - intros x _. reflexivity.
Qed.
Lemma timed_read : read_entries isort (file_text timed_blocks) (e_db timed) timed_list.
Proof.
  constructor.
  - apply isort_sorts.
  - vm_compute. reflexivity.
  - vm_compute. reflexivity.
  - intros e H. apply entry_okb_ok. revert e H. apply forallb_forall. vm_compute. reflexivity.
  - vm_compute. repeat (constructor; [cbn; intuition congruence|]). constructor.
  - intros e n H. assert (X : forallb (fun e => match entry_id e with Some n => existsb (Z.eqb (Z.of_N n)) (map g_id (d_msgs timed_db)) | None => true end) timed_list = true) by (vm_compute; reflexivity).
    rewrite forallb_forall in X. specialize (X e H). intros E. rewrite E in X. apply existsb_exists in X as (z & Z1 & Z2). apply Z.eqb_eq in Z2. subst z. exact Z1.
Qed.
Example C62_cycle_case : const_macro (after_header (e_conf timed) (e_h timed)) "Panel_CYC" 20.
Proof.
  apply (C62_cycle_partial isort timed_blocks timed timed_list (map EOther (flat_map block_lines timed_head) ++ [ECycle 7 50])%list 7 20 [ECycle 9 4000000000; ECycle 8 4294967296] panel timed_project timed_read);
    [now left|reflexivity|reflexivity| |split; reflexivity].
  intros k c [X|[X|[]]]; inversion X; subst k; vm_compute; discriminate.
Qed.
(** written as (-294967296U) *)
Definition timed_unit : ctx := {| c_types := fun _ => None; c_macros := after_header [] timed_h; c_funs := fun _ => None; c_calls := fun _ => None |}.
Example C62_cycle_value_case : eval 1 timed_unit (panel_mem 0 0) [] (EId "Slow_CYC") = Ok (VI U32 4000000000).
Proof.
  apply (C62_cycle_value_partial isort timed_blocks timed timed_list (map EOther (flat_map block_lines timed_head) ++ [ECycle 7 50; ECycle 7 20])%list 9 4000000000 [ECycle 8 4294967296] slow timed_project timed_read);
    [right; right; now left|reflexivity|reflexivity| |discriminate|reflexivity].
  intros k c [X|[]]; inversion X; subst k; vm_compute; discriminate.
Qed.
Example C62_uncycled_case : lookup "Panel_CYC" (after_header (e_conf table) (e_h table)) = None /\ e_conf table = [] /\ e_h table <> "".
Proof.
  split; [|split; [reflexivity|discriminate]]. apply (C62_uncycled_partial isort table_blocks table table_list panel table_project table_read); [now left| |].
  - intros k c H. vm_compute in H. repeat (destruct H as [H|H]; [discriminate H|]). contradiction.
  - intros m M N. assert (X : forallb (fun m => negb (existsb (String.eqb "Panel_CYC") (entry_names m))) (d_msgs table_db) = true) by (vm_compute; reflexivity).
    rewrite forallb_forall in X. specialize (X m M). apply negb_true_iff in X. apply Bool.not_true_iff_false in X. apply X. apply existsb_exists. exists "Panel_CYC". split; [exact N|apply String.eqb_refl].
Qed.
Theorem C62_cycle_refuted : exists bs e es a k n b md, project isort bs e /\ read_entries isort (file_text bs) (e_db e) es /\ In md (file_msgs bs) /\
  es = (a ++ ECycle k n :: b)%list /\ plain_id k = plain_id (md_id md) /\ b = [] /\ n = 4294967296%N /\
  lookup (md_name md ++ "_CYC") (after_header (e_conf e) (e_h e)) = None.
Proof.
  exists timed_blocks, timed, timed_list, (map EOther (flat_map block_lines timed_head) ++ [ECycle 7 50; ECycle 7 20; ECycle 9 4000000000])%list, 8%N, 4294967296%N, [], long.
  split; [exact timed_project|]. split; [exact timed_read|]. split; [right; now left|]. split; [reflexivity|]. split; [reflexivity|]. split; [reflexivity|]. split; [reflexivity|].
  vm_compute. reflexivity.
Qed.
Print Assumptions C62_cycle_refuted.

(** an entry of a value table whose macro has the name of a cycle time *)
Definition unit_msg : msgdecl := {| md_id := 1; md_name := "Fan"; md_dlc := 1; md_tx := "ECU"; md_sigs := [plain_sig "Left" 0 4] |}.
Definition left_msg : msgdecl := {| md_id := 2; md_name := "Left_Fan"; md_dlc := 1; md_tx := "ECU"; md_sigs := [plain_sig "Rest" 0 4] |}.
Definition clash_head : list block := [BLine "BU_: ECU GW"; BMsg unit_msg; BMsg left_msg].
Definition clash_tail : list entry := [EVals 1 "Left" [(5%Z, "CYC")]].
Definition clash_blocks : list block := (clash_head ++ map BLine (file_lines clash_tail))%list.
Definition clash_list : list entry := (map EOther (flat_map block_lines clash_head) ++ clash_tail)%list.
Definition clash_db : dbclist := Eval vm_compute in db_of (file_text clash_blocks).
Definition clash_files : list (string * string) := Eval vm_compute in files_of "drv" clash_db.
Definition clash_h : string := Eval vm_compute in snd (nth 0 clash_files ("", "")).
Definition clash_c : string := Eval vm_compute in snd (nth 1 clash_files ("", "")).
Definition clash : env := the_env 0 "drv" clash_db clash_h clash_c [] no_user no_calls.
Definition clash_unit : ctx := {| c_types := fun _ => None; c_macros := after_header [] clash_h; c_funs := fun _ => None; c_calls := fun _ => None |}.
Theorem C62_uncycled_refuted : exists bs e es md C mm, project isort bs e /\ read_entries isort (file_text bs) (e_db e) es /\ In md (file_msgs bs) /\
  (forall k c, ~ In (ECycle k c) es) /\ e_conf e = [] /\ c_macros C = after_header (e_conf e) (e_h e) /\ eval 1 C mm [] (EId (md_name md ++ "_CYC")) = Ok (VI I32 5).
Proof.
  exists clash_blocks, clash, clash_list, left_msg, clash_unit, (panel_mem 0 0). split; [|split; [|split; [right; now left|split]]].
  - constructor.
    + apply isort_sorts.
    + assert (O : forall l, lacks NL l && negb (String.prefix "BO_ " l) && (negb (mentions "SG_" l) || negb (spaced_colon l)) = true -> other_line l).
      { intros l H. unfold other_line. destruct (lacks NL l), (String.prefix "BO_ " l), (mentions "SG_" l), (spaced_colon l); cbn in H; try discriminate; auto. }
      assert (NN : forall s, negb (String.eqb s "") && all_chars node_char s = true -> node_name s).
      { intros s H. apply andb_true_iff in H as [H1 H2]. split; auto. intros ->. discriminate. }
      intros b B. repeat destruct B as [<-|B]; try contradiction; cbn [block_ok]; try (apply O; vm_compute; reflexivity);
        (constructor; cbn [md_id md_name md_dlc md_tx md_sigs unit_msg left_msg]; [vm_compute; reflexivity|split; [vm_compute; reflexivity|split; [vm_compute; reflexivity|lia]]|apply NN; reflexivity|apply NN; reflexivity|]);
        (intros s [<-|[]]; apply plain_ok; [apply NN; reflexivity|vm_compute; reflexivity|vm_compute; reflexivity]).
    + intros m [<-|[<-|[]]]; apply fitsb_ok; vm_compute; reflexivity.
    + apply nodupb_ok. vm_compute. reflexivity.
    + vm_compute. reflexivity.
    + exact (dr_run _ _ _ _ _ (driverb_ok "drv" clash_db clash_h clash_c ltac:(vm_compute; reflexivity))).
    + vm_compute. split; [reflexivity|lia].
    + intros m M. apply entriesb_ok. revert m M. apply forallb_forall. vm_compute. reflexivity.
    + apply nodupb_ok. vm_compute. reflexivity.
    + intros x _. reflexivity.
  - constructor.
    + apply isort_sorts.
    + vm_compute. reflexivity.
    + vm_compute. reflexivity.
    + intros e H. apply entry_okb_ok. revert e H. apply forallb_forall. vm_compute. reflexivity.
    + vm_compute. repeat (constructor; [cbn; intuition congruence|]). constructor.
    + intros e n H. assert (X : forallb (fun e => match entry_id e with Some n => existsb (Z.eqb (Z.of_N n)) (map g_id (d_msgs clash_db)) | None => true end) clash_list = true) by (vm_compute; reflexivity).
      rewrite forallb_forall in X. specialize (X e H). intros E. rewrite E in X. apply existsb_exists in X as (z & Z1 & Z2). apply Z.eqb_eq in Z2. subst z. exact Z1.
  - intros k c H. vm_compute in H. repeat (destruct H as [H|H]; [discriminate H|]). contradiction.
  - split; [reflexivity|]. split; [reflexivity|]. vm_compute. reflexivity.
Qed.
Print Assumptions C62_uncycled_refuted.
