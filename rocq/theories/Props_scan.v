(** Properties C27-C34 and C45-C48: what the scanner reads from a DBC text.

    [scan srt text] is the whole reader (Scanner.v); [srt] stands for std::sort.  Lines, entries and the
    other vocabulary of DBC files are in ScanSpec.v. *)

From Coq Require Import ZArith NArith List String Ascii Bool Lia ZifyBool Permutation Sorted.
From Verif Require Import Base Dbl CSyntax CSem CRun Types Formatter Settings MainGen LineParser Scanner App CodecSpec MsgSpec DriverSpec HeaderSpec HeaderRun HeaderTables HeaderCycle HeaderVer
  ScanSpec ScanLemmas ScanLines ScanPass1 ScanPass2 ScanFile ScanThms ScanMarks CodecEnv Concrete Samples.
Import ListNotations.
Open Scope string_scope.

Definition dq_text (s : string) : string := map_string (fun c => if Ascii.eqb c "'" then DQ else c) s.

(** ** C27.  Full claim: for every number in the ID and DLC positions.  Proved for numbers of 32 and 8 bits;
    larger ones are cut.  [name] and [tx] are free of the separators (blank and colon). *)
Theorem C27_message_line_partial : forall id name dlc tx, (id < 2 ^ 32)%N -> (dlc < 2 ^ 8)%N ->
  not_in msg_delim name -> not_in msg_delim tx -> tx <> "" ->
  (valid_header id dlc <-> exists m, parse_message_line (bo_line id name dlc tx) = Some m) /\
  forall m, parse_message_line (bo_line id name dlc tx) = Some m ->
    g_name m = name /\ g_dlc m = Z.of_N dlc /\ g_id m = Z.of_N (plain_id id) /\ g_ext m = (if N.testbit id 31 then 1 else 0)%Z /\
    g_sigs m = [] /\ ((1 < String.length tx)%nat -> g_trans m = [tx]).
Proof.
  intros id name dlc tx I D N T E.
  rewrite parse_bo by (auto; change (2 ^ 32)%N with 4294967296%N in I; change (2 ^ 8)%N with 256%N in D; lia).
  cbv zeta. rewrite (Z.mod_small (Z.of_N id)) by (change (2 ^ 32)%N with 4294967296%N in I; lia).
  rewrite (Z.mod_small (Z.of_N dlc)) by (change (2 ^ 8)%N with 256%N in D; lia).
  replace 29%Z with (Z.of_N 29) by reflexivity. replace 30%Z with (Z.of_N 30) by reflexivity. replace 31%Z with (Z.of_N 31) by reflexivity.
  rewrite !Z.testbit_of_N. unfold valid_header, plain_id. split; [split|].
  - intros (A & B & C). rewrite A, B. destruct (_ || _) eqn:Q; [exfalso; cbn [orb] in Q; lia|eauto].
  - intros (m & H). destruct (_ || _) eqn:Q; [discriminate|]. apply orb_false_iff in Q as [Q Q4]. apply orb_false_iff in Q as [Q Q3].
    apply orb_false_iff in Q as [Q1 Q2]. repeat split; auto; lia.
  - intros m H. destruct (_ || _) eqn:Q; [discriminate|]. apply some_inj in H; subst m. cbn [g_name g_dlc g_id g_ext g_sigs g_trans].
    repeat split; auto.
    + rewrite N2Z.inj_mod. reflexivity.
    + intros L. apply Nat.ltb_lt in L. now rewrite L.
Qed.
Print Assumptions C27_message_line_partial.
Example C27_case : bo_line 2148532224 "Status" 4 "ECU" = "BO_ 2148532224 Status: 4 ECU" /\ valid_header 2148532224 4 /\
  exists m, parse_message_line (bo_line 2148532224 "Status" 4 "ECU") = Some m /\ g_id m = 1048576%Z /\ g_ext m = 1%Z /\
  parse_message_line (bo_line (2 ^ 29) "Status" 4 "ECU") = None /\ parse_message_line (bo_line 1 "Status" 65 "ECU") = None.
Proof. split; [reflexivity|]. split; [vm_compute; repeat split; congruence|]. eexists. vm_compute. auto. Qed.
(** a length of 264 is taken for 8 *)
Theorem C27_message_line_refuted : exists id name dlc tx m, not_in msg_delim name /\ not_in msg_delim tx /\ tx <> "" /\
  ~ valid_header id dlc /\ parse_message_line (bo_line id name dlc tx) = Some m.
Proof.
  exists 1%N, "M", 264%N, "ECU". eexists. split; [reflexivity|]. split; [reflexivity|]. split; [discriminate|].
  split; [intros (_ & _ & H); lia|]. vm_compute. reflexivity.
Qed.
Print Assumptions C27_message_line_refuted.

(** ** C28.  Messages come from the accepted message lines, in order; each holds the signals declared between its
    line and the next message line ([accepted]: up to a transmitter list, which ends a message). *)
Theorem C28_signals_of_message : forall srt text d, sorts srt -> scan srt text = Ok d ->
  Forall2 (fun m g => exists m0 sigs, parse_message_line (fst g) = Some m0 /\
      g_name m = g_name m0 /\ g_id m = g_id m0 /\ g_ext m = g_ext m0 /\ g_dlc m = g_dlc m0 /\
      Permutation sigs (accepted (fst g :: snd g)) /\ Forall2 same_signal (g_sigs m) sigs)
    (d_msgs d) (accepted_lines text).
Proof.
  intros srt text d SR H. eapply forall2_impl; [|apply (scan_messages _ _ _ H)].
  intros m g (m0 & sigs & [A B C D E F G _ _]). exists m0, sigs. repeat split; auto. rewrite F. apply SR.
Qed.
Print Assumptions C28_signals_of_message.

(** ** C33 *)
Definition sorts_by (srt : sorter) : Prop :=
  forall A (key : A -> Z) l, Permutation (srt A key l) l /\ StronglySorted (fun a b => (key a <= key b)%Z) (srt A key l).
Theorem C33_signals_ordered : forall srt text d, sorts_by srt -> scan srt text = Ok d ->
  Forall2 (fun m g => exists sigs, Permutation sigs (accepted (fst g :: snd g)) /\ Forall2 same_signal (g_sigs m) sigs /\
      StronglySorted (fun a b => (s_start a <= s_start b)%Z) (g_sigs m) /\
      NoDup (g_recs m) /\ forall x, In x (g_recs m) <-> exists sg, In sg (g_sigs m) /\ In x (s_recs sg))
    (d_msgs d) (accepted_lines text).
Proof.
  intros srt text d SR H. eapply forall2_impl; [|apply (scan_messages _ _ _ H)].
  intros m g (m0 & sigs & [A B C D E F G RE _]). exists sigs. destruct (SR _ s_start (accepted (fst g :: snd g))) as [P S].
  rewrite F. split; [exact P|]. rewrite <- F in *. split; [exact G|]. split.
  - clear - G S. revert S. induction G as [|x y a b R G IH]; intros S; [constructor|]. inversion S; subst. constructor; [auto|].
    apply Forall_forall. intros z Z. assert (K : exists z', In z' b /\ same_signal z z').
    { clear - G Z. induction G as [|u v a b R G IH]; [contradiction|]. destruct Z as [->|Z]; [exists v; split; [now left|auto]|].
      destruct (IH Z) as (z' & I & J). exists z'. split; [now right|auto]. }
    destruct K as (z' & I & J). rewrite Forall_forall in H2. specialize (H2 _ I). unfold same_signal in *.
    destruct R as (_ & _ & _ & R & _). destruct J as (_ & _ & _ & J & _). lia.
  - rewrite RE. destruct (recs_spec (flat_map s_recs sigs)) as [N I]. split; [exact N|]. intros x. rewrite I, in_flat_map.
    clear - G. induction G as [|u v a b R G IH]; [split; intros (s & [] & _)|].
    assert (RR : s_recs u = s_recs v) by apply R. cbn [In]. split.
    + intros (s & [<-|S] & X); [exists u; split; [now left|congruence]|]. destruct (proj1 IH (ex_intro _ s (conj S X))) as (t & T & Y). exists t; auto.
    + intros (s & [<-|S] & X); [exists v; split; [now left|congruence]|]. destruct (proj2 IH (ex_intro _ s (conj S X))) as (t & T & Y). exists t; auto.
Qed.
Print Assumptions C33_signals_ordered.

Lemma insert_sorted : forall A (key : A -> Z) x l, StronglySorted (fun a b => (key a <= key b)%Z) l ->
  StronglySorted (fun a b => (key a <= key b)%Z) (insert_by key x l).
Proof.
  intros A key x l IH. induction IH as [|y r S IS F]; cbn [insert_by]; [repeat constructor|].
  destruct (key x <? key y)%Z eqn:E.
  - constructor; [constructor; auto|]. constructor; [lia|]. eapply Forall_impl; [|exact F]. cbn. lia.
  - constructor; auto. apply Forall_forall. intros z Z. apply (Permutation_in z (insert_perm _ key x r)) in Z. destruct Z as [<-|Z]; [lia|].
    rewrite Forall_forall in F. auto.
Qed.
Lemma isort_sorts_by : sorts_by isort.
Proof.
  intros A key l. split; [apply isort_sorts|]. unfold isort.
  assert (H : forall acc, StronglySorted (fun a b => (key a <= key b)%Z) acc ->
    StronglySorted (fun a b => (key a <= key b)%Z) (fold_left (fun acc a => insert_by key a acc) l acc)).
  { induction l as [|x l IH]; intros acc S; cbn [fold_left]; auto. apply IH, insert_sorted, S. }
  apply H. constructor.
Qed.
Print Assumptions isort_sorts_by.
Definition mixed_text : string := dq_text
"BO_ 291 Engine: 8 ECU
 SG_ B : 16|8@1+ (1,0) [0|0] '' GW,Dash
 SG_ A : 0|8@1+ (1,0) [0|0] '' GW
BO_ 536870912 Bad: 8 ECU
 SG_ Lost : 0|8@1+ (1,0) [0|0] '' GW
BO_ 5 Next: 1 GW
 SG_ C : 0|1@1+ (1,0) [0|0] '' ECU
".
Example C28_C33_case : exists d, scan isort mixed_text = Ok d /\
  map (fun m => (g_name m, map s_name (g_sigs m), g_recs m)) (d_msgs d) = [("Engine", ["A"; "B"], ["GW"; "Dash"]); ("Next", ["C"], ["ECU"])] /\
  map (fun g => (fst g, map s_name (accepted (fst g :: snd g)))) (accepted_lines mixed_text) = [("BO_ 291 Engine: 8 ECU", ["B"; "A"]); ("BO_ 5 Next: 1 GW", ["C"])].
Proof. eexists. split; [vm_compute; reflexivity|]. split; vm_compute; reflexivity. Qed.

(** ** C29.  Full claim: the maximum over all messages.  Proved: the value is 0 or the length of some message, and not
    below the length of any message that is followed by another message line (without a transmitter list in between). *)
Theorem C29_max_dlc_partial : forall srt text d, scan srt text = Ok d ->
  (d_maxdlc d = 0%Z \/ exists m, In m (d_msgs d) /\ g_dlc m = d_maxdlc d) /\
  (forall a g b m0, message_lines text = (a ++ g :: b)%list -> b <> [] -> parse_message_line (fst g) = Some m0 ->
     existsb closes (fst g :: snd g) = false -> (g_dlc m0 <= d_maxdlc d)%Z) /\
  forall drv g h c conf, driver drv g d h c -> header_ok d -> once (n_DRV g ++ "_MAX_DLC_VALUE") h ->
    lookup (n_DRV g ++ "_MAX_DLC_VALUE") conf = None ->
    const_macro (after_header conf h) (n_DRV g ++ "_MAX_DLC_VALUE") (d_maxdlc d).
Proof.
  intros srt text d H. destruct (scan_max_is _ _ _ H) as [A B]. split; [exact A|]. split; [exact B|].
  intros drv g h c conf DR HO O L. pose proof (header_max drv g d h c conf DR HO O) as X. unfold defaulted in X. now rewrite L in X.
Qed.
Print Assumptions C29_max_dlc_partial.
Example C29_case : exists d, scan isort sample_text = Ok d /\ d_maxdlc d = 8%Z /\ map g_dlc (d_msgs d) = [8; 4; 1]%Z /\ d = sample_db.
Proof. eexists. split; [vm_compute; reflexivity|]. vm_compute. auto. Qed.
Theorem C29_max_dlc_refuted : exists text d m, scan isort text = Ok d /\ In m (d_msgs d) /\ (d_maxdlc d < g_dlc m)%Z.
Proof.
  exists single_text, single_db, only. split; [vm_compute; reflexivity|]. split; [vm_compute; auto|]. vm_compute. reflexivity.
Qed.
Print Assumptions C29_max_dlc_refuted.

(** ** C34.  Full claim: for every transmitter name.  Proved for the names the first pass takes from the message line
    ([g_trans m0], see C27: names longer than one character), with BO_TX_BU_ lines after the messages, before other
    lines, for existing messages with an ID other than 0. *)
Theorem C34_transmitters_partial : forall srt text ls es rest d,
  getlines text = (ls ++ map (fun e => tx_line (fst e) (snd e)) es ++ rest)%list -> scan srt text = Ok d ->
  (forall l, In l ls -> closes (str_trim l) = false) -> (forall l, In l rest -> neutral (str_trim l)) ->
  (forall e, In e es -> tx_ok e) -> NoDup (map g_id (d_msgs d)) ->
  (forall e, In e es -> In (Z.of_N (plain_id (fst e))) (map g_id (d_msgs d))) ->
  Forall2 (fun m g => exists m0, parse_message_line (fst g) = Some m0 /\ g_name m = g_name m0 /\ g_id m = g_id m0 /\ NoDup (g_trans m) /\
    forall x, In x (g_trans m) <-> In x (g_trans m0) \/ exists id nodes, In (id, nodes) es /\ Z.of_N (plain_id id) = g_id m /\ In x nodes)
   (d_msgs d) (filter (fun g => some (parse_message_line (fst g))) (snd (groups (map str_trim ls)))).
Proof. exact transmitters. Qed.
Print Assumptions C34_transmitters_partial.
Definition tx_text : string := dq_text
"BO_ 291 Engine: 8 ECU
 SG_ A : 0|8@1+ (1,0) [0|0] '' GW
BO_ 5 Next: 1 GW
BO_TX_BU_ 291 : GW,ECU;
BO_TX_BU_ 291 : Dash,GW;
CM_ 'file';
".
Example C34_case : getlines tx_text = (firstn 3 (getlines tx_text) ++ map (fun e => tx_line (fst e) (snd e)) [(291%N, ["GW"; "ECU"]); (291%N, ["Dash"; "GW"])] ++ [dq_text "CM_ 'file';"])%list /\
  exists d, scan isort tx_text = Ok d /\ map (fun m => (g_id m, g_trans m)) (d_msgs d) = [(291%Z, ["ECU"; "GW"; "Dash"]); (5%Z, ["GW"])].
Proof. split; [vm_compute; reflexivity|]. eexists. split; vm_compute; reflexivity. Qed.
(** a transmitter with a one letter name is dropped *)
Theorem C34_transmitters_refuted : exists text d m, text = bo_line 291 "Engine" 8 "E" ++ nl /\ scan isort text = Ok d /\ d_msgs d = [m] /\ g_trans m = [].
Proof. do 3 eexists. split; [reflexivity|]. split; [vm_compute; reflexivity|]. split; reflexivity. Qed.
Print Assumptions C34_transmitters_refuted.

(** ** C45.  Full claim: for all numbers.  Proved for numbers below 2^32; [g] are the names the settings of the run give. *)
Theorem C45_version_partial : forall srt text d, scan srt text = Ok d ->
  (forall l1 l2 raw a b, getlines text = (l1 ++ raw :: l2)%list -> str_trim raw = version_line a b -> (a < 2 ^ 32)%N -> (b < 2 ^ 32)%N ->
     (forall x, In x l2 -> begins_ci "version" (str_trim x) = false) ->
     d_verhi d = Z.of_N a /\ d_verlow d = Z.of_N b) /\
  ((forall x, In x (getlines text) -> begins_ci "version" (str_trim x) = false) -> d_verhi d = 0%Z /\ d_verlow d = 0%Z) /\
  forall o now drv g h c conf, g = st_g (app_settings o now d) -> driver drv g d h c -> header_ok d ->
    const_macro (after_header conf h) (n_verhi g) (d_verhi d) /\ const_macro (after_header conf h) (n_verlow g) (d_verlow d).
Proof.
  intros srt text d H. destruct (scan_passes _ _ _ H) as (d1 & I & _ & _ & VH & VL). rewrite VH, VL.
  destruct (version_last _ _ _ I) as [A B]. split; [|split].
  - intros l1 l2 raw a b E T LA LB N. change (2 ^ 32)%N with 4294967296%N in *.
    destruct (A l1 l2 raw a b E T ltac:(lia) ltac:(lia) N) as [-> ->]. now rewrite !Z.mod_small by lia.
  - exact B.
  - intros o now drv g h c conf G DR HO. destruct (version_kept drv g d h c conf DR HO) as [X Y].
    rewrite G in *. unfold app_settings in X, Y. rewrite <- VH, <- VL. split; [exact X|exact Y].
Qed.
Print Assumptions C45_version_partial.
Example C45_case : version_line 2 7 = nth 0 (getlines sample_text) "" /\ d_verhi sample_db = 2%Z /\ d_verlow sample_db = 7%Z.
Proof. vm_compute. auto. Qed.
Theorem C45_version_refuted : exists a b text d, text = version_line a b ++ nl /\ scan isort text = Ok d /\ d_verhi d <> Z.of_N a.
Proof. exists (2 ^ 32 + 1)%N, 0%N. do 2 eexists. split; [reflexivity|]. split; [vm_compute; reflexivity|]. vm_compute. discriminate. Qed.
Print Assumptions C45_version_refuted.

(** ** Entries after the messages.  [read_entries srt text d es] (ScanThms.v): scanning [text] gives [d]; the lines of the
    text are those of the entries [es] (all other lines are [EOther]); the message IDs are distinct and every entry
    names an existing message. *)

(** ** C30.  Full claim: also for entries with an unknown ID; those go to the last message.  Proved: a message after the
    second pass depends only on the entries that name it, and without any it is unchanged; no line whatsoever changes
    names, IDs, lengths and signal layouts in the second pass.  Transmitter lists are in C34. *)
Theorem C30_entries_isolated_partial :
  (forall ms es es' k m, (forall e, In e es -> entry_ok e) -> (forall e, In e es' -> entry_ok e) -> NoDup (map g_id ms) ->
     known es ms -> known es' ms -> nth_error ms k = Some m -> filter (names (g_id m)) es = filter (names (g_id m)) es' ->
     nth_error (parse_other_info ms (file_lines es)) k = nth_error (parse_other_info ms (file_lines es')) k) /\
  (forall ms es k m, (forall e, In e es -> entry_ok e) -> NoDup (map g_id ms) -> known es ms -> nth_error ms k = Some m ->
     (forall e, In e es -> names (g_id m) e = false) -> nth_error (parse_other_info ms (file_lines es)) k = Some m) /\
  (forall ms ls, Forall2 same_message (parse_other_info ms ls) ms).
Proof.
  split; [|split].
  - intros ms es es' k m A B N K K' M F. rewrite !file_effects by auto. rewrite !nth_error_map, M. cbn [option_map]. now rewrite F.
  - intros ms es k m A N K M F. rewrite file_effects by auto. rewrite nth_error_map, M. cbn [option_map].
    replace (filter (names (g_id m)) es) with (@nil entry); [reflexivity|]. symmetry.
    clear - F. induction es as [|e es IH]; [reflexivity|]. cbn [filter]. rewrite F by now left. apply IH. intros; apply F. now right.
  - exact other_same.
Qed.
Print Assumptions C30_entries_isolated_partial.

Definition entry_text : string := dq_text
"VERSION '2.7'
BO_ 291 Engine: 8 ECU
 SG_ Speed : 0|16@1+ (1,0) [0|0] '' GW
 SG_ Load : 16|8@1+ (2,0) [0|0] '' GW
 SG_ CS : 24|4@1+ (1,0) [0|0] '' GW
BO_ 2147483653 Next: 8 GW
 SG_ Mode : 0|2@1- (1,0) [0|0] '' ECU
BO_ 7 Last: 1 GW
CM_ BO_ 291 'first line
second; but not the end
last';
CM_ SG_ 291 Load 'a load';
CM_ SG_ 291 CS 'sum <Checksum:XOR8:3> of all';
BA_ 'GenMsgCycleTime' BO_ 291 100;
BA_ 'GenMsgCycleTime' BO_ 2147483653 20;
BA_ 'GenMsgCycleTime' BO_ 291 50;
VAL_ 2147483653 Mode 0 'Off' -1 'Not valid' ;
VAL_ 291 Speed 65535 'Unknown' ;
".
Definition entry_list : list entry :=
  (map EOther (firstn 8 (getlines entry_text)) ++
   [EComment 291 None "first line" ["second; but not the end"; "last"];
    EComment 291 (Some "Load") "a load" [];
    EComment 291 (Some "CS") "sum <Checksum:XOR8:3> of all" [];
    ECycle 291 100; ECycle 2147483653 20; ECycle 291 50;
    EVals 2147483653 "Mode" [(0%Z, "Off"); ((-1)%Z, "Not valid")];
    EVals 291 "Speed" [(65535%Z, "Unknown")]])%list.
Definition entry_db : dbclist := Eval vm_compute in db_of entry_text.
Definition inner_lineb (s : string) : bool := solid_end s && negb (ends_semicolon s).
Definition entry_okb (e : entry) : bool :=
  match e with
  | ECycle id n => (id <? 2 ^ 63)%N && (n <? 2 ^ 63)%N
  | EVals id s v => (id <? 2 ^ 63)%N && negb (String.eqb s "") && all_chars node_char s &&
      forallb (fun p => (- 2 ^ 63 <=? fst p)%Z && (fst p <? 2 ^ 63)%Z && all_chars text_char (snd p)) v
  | EComment id s t r => (id <? 2 ^ 63)%N && match s with Some x => negb (String.eqb x "") && all_chars node_char x | None => true end &&
      forallb (all_chars text_char) (t :: r) && forallb (fun u => negb (opens_entry (u ++ dq))) r &&
      match r with [] => true | _ => (String.eqb t "" || inner_lineb t) && forallb inner_lineb (removelast r) && negb (String.eqb (last r "") "") end
  | EOther l => negb (opens_entry l)
  end.
Lemma inner_ok : forall s, inner_lineb s = true -> inner_line s.
Proof. intros s H. unfold inner_lineb in H. apply andb_true_iff in H as [A B]. split; auto. now apply negb_true_iff. Qed.
Lemma entry_okb_ok : forall e, entry_okb e = true -> entry_ok e.
Proof.
  intros [id n|id s v|id s t r|l] H; cbn [entry_okb entry_ok] in *; unfold number, node_name.
  - apply andb_true_iff in H as [A B]. split; lia.
  - apply andb_true_iff in H as [H V]. apply andb_true_iff in H as [H C]. apply andb_true_iff in H as [A B].
    apply negb_true_iff, String.eqb_neq in B. rewrite forallb_forall in V. split; [lia|]. split; [auto|].
    intros p P. specialize (V p P). apply andb_true_iff in V as [V1 V2]. split; [lia|exact V2].
  - apply andb_true_iff in H as [H E]. apply andb_true_iff in H as [H D]. apply andb_true_iff in H as [H C]. apply andb_true_iff in H as [A B].
    rewrite forallb_forall in C, D. split; [lia|]. split; [|split; [|split]].
    + intros x ->. apply andb_true_iff in B as [B1 B2]. apply negb_true_iff, String.eqb_neq in B1. auto.
    + exact C.
    + intros u U. apply negb_true_iff. now apply D.
    + destruct r as [|u r]; [now left|right]. apply andb_true_iff in E as [E E3]. apply andb_true_iff in E as [E1 E2].
      apply negb_true_iff, String.eqb_neq in E3. rewrite forallb_forall in E2. split; [|split; [|exact E3]].
      * apply orb_true_iff in E1 as [E1|E1]; [left; now apply String.eqb_eq|right; now apply inner_ok].
      * intros x X. apply (inner_ok x (E2 x X)).
  - now apply negb_true_iff.
Qed.
Lemma entry_read : read_entries isort entry_text entry_db entry_list.
Proof.
  constructor.
  - apply isort_sorts.
  - vm_compute. reflexivity.
  - vm_compute. reflexivity.
  - intros e H. apply entry_okb_ok. revert e H. apply forallb_forall. vm_compute. reflexivity.
  - vm_compute. repeat (constructor; [cbn; intuition congruence|]). constructor.
  - intros e n H. assert (X : forallb (fun e => match entry_id e with Some n => existsb (Z.eqb (Z.of_N n)) (map g_id (d_msgs entry_db)) | None => true end) entry_list = true) by (vm_compute; reflexivity).
    rewrite forallb_forall in X. specialize (X e H). intros E. rewrite E in X. apply existsb_exists in X as (z & Z1 & Z2). apply Z.eqb_eq in Z2. subst z. exact Z1.
Qed.
Definition msg_of (d : dbclist) (i : nat) : message := nth i (d_msgs d) engine.
Example C30_case : filter (names 7) entry_list = [] /\ g_comment (msg_of entry_db 2) = "" /\ g_cycle (msg_of entry_db 2) = 0%Z /\ d_msgs entry_db <> [].
Proof. vm_compute. repeat split; discriminate. Qed.
(** a comment for a message that does not exist lands on the last message *)
Theorem C30_entries_isolated_refuted : exists text d id m, scan isort text = Ok d /\ ~ In (Z.of_N (plain_id id)) (map g_id (d_msgs d)) /\
  getlines text = [bo_line 7 "Last" 1 "GW"; comment_head id None ++ "x" ++ dq ++ ";"] /\ d_msgs d = [m] /\ g_comment m = "x".
Proof.
  exists (bo_line 7 "Last" 1 "GW" ++ nl ++ comment_head 99 None ++ "x" ++ dq ++ ";" ++ nl). eexists. exists 99%N. eexists.
  split; [vm_compute; reflexivity|]. split; [vm_compute; intuition congruence|]. split; [vm_compute; reflexivity|]. split; [reflexivity|reflexivity].
Qed.
Print Assumptions C30_entries_isolated_refuted.

(** ** C31.  Full claim: also for scaled signals.  Proved for signals stored under their declared name, that is, unscaled ones. *)
Theorem C31_value_table_partial : forall srt text d es a id n v b m s, read_entries srt text d es -> es = (a ++ EVals id n v :: b)%list ->
  (forall k w, In (EVals k n w) b -> plain_id k <> plain_id id) -> In m (d_msgs d) -> g_id m = Z.of_N (plain_id id) ->
  In s (g_sigs m) -> s_name s = n -> s_valdefs s = map (fun p => (make_c_name (snd p), (fst p mod 2 ^ 32)%Z)) v.
Proof. exact vals_set. Qed.
Print Assumptions C31_value_table_partial.
Example C31_case : map (fun s => (s_name s, s_valdefs s)) (g_sigs (msg_of entry_db 1)) = [("Mode", [("Off", 0%Z); ("Not_valid", 4294967295%Z)])].
Proof. vm_compute. reflexivity. Qed.
Theorem C31_value_table_refuted : exists srt text d es id v m s, read_entries srt text d es /\ In (EVals id "Load" v) es /\ v <> [] /\
  In m (d_msgs d) /\ g_id m = Z.of_N (plain_id id) /\ g_sigs m = [s] /\ s_name s = "Load_ro" /\ s_valdefs s = [].
Proof.
  set (ls := [bo_line 7 "Last" 1 "GW"; sg_line "Load" "" 0 8 Intel false "2" "0" "0" "0" "" ["GW"]]).
  set (es := (map EOther ls ++ [EVals 7 "Load" [(1%Z, "One")]])%list). set (text := sconcat (map (fun l => l ++ nl) (file_lines es))).
  exists isort, text, (db_of text), es, 7%N, [(1%Z, "One")], (msg_of (db_of text) 0). eexists. split.
  - constructor.
    + apply isort_sorts.
    + vm_compute. reflexivity.
    + vm_compute. reflexivity.
    + intros e H. apply entry_okb_ok. revert e H. apply forallb_forall. vm_compute. reflexivity.
    + vm_compute. repeat constructor. intros [].
    + intros e n H. assert (X : forallb (fun e => match entry_id e with Some n => existsb (Z.eqb (Z.of_N n)) (map g_id (d_msgs (db_of text))) | None => true end) es = true) by (vm_compute; reflexivity).
      rewrite forallb_forall in X. specialize (X e H). intros E. rewrite E in X. apply existsb_exists in X as (z & Z1 & Z2). apply Z.eqb_eq in Z2. subst z. exact Z1.
  - split; [right; right; now left|]. split; [discriminate|]. split; [vm_compute; auto|]. split; [vm_compute; reflexivity|]. split; [vm_compute; reflexivity|]. split; reflexivity.
Qed.
Print Assumptions C31_value_table_refuted.

(** ** C48.  Full claim: also when several macros of the header have the same name.  Proved for names the header defines once. *)
Theorem C48_value_macros_partial : forall srt text d es a id n v b m s z desc, read_entries srt text d es -> es = (a ++ EVals id n v :: b)%list ->
  (forall k w, In (EVals k n w) b -> plain_id k <> plain_id id) -> In m (d_msgs d) -> g_id m = Z.of_N (plain_id id) ->
  In s (g_sigs m) -> s_name s = n -> In (z, desc) v -> (- 2 ^ 31 <= z < 2 ^ 31)%Z ->
  forall drv g h c conf, driver drv g d h c -> header_ok d ->
    let x := n ++ "_" ++ g_name m ++ "_" ++ make_c_name desc in
    once x h -> lookup x conf = None -> int_macro (after_header conf h) x z.
Proof.
  intros srt text d es a id n v b m s z desc R E L I G IS SN IV Z drv g h c conf DR HO x O LK.
  pose proof (vals_set _ _ _ _ _ _ _ _ _ _ _ R E L I G IS SN) as V.
  assert (NE : g_notempty m = true).
  { pose proof (scan_messages _ _ _ (re_scan _ _ _ _ R)) as F. pose proof (re_sorts _ _ _ _ R) as SR. clear - F I IS SR.
    induction F as [|y w l l' X F IH]; [contradiction|]. destruct I as [->|I]; [|auto].
    destruct X as (m0 & sigs & [_ _ _ _ _ P Q _ N]). rewrite N. destruct (accepted _) as [|? ?] eqn:AC; [|reflexivity]. exfalso.
    assert (sigs = []) by (apply Permutation_nil; rewrite P; symmetry; apply SR). subst sigs. rewrite H in Q. inversion Q. rewrite <- H1 in IS. contradiction. }
  assert (IN : In (make_c_name desc, (z mod 2 ^ 32)%Z) (s_valdefs s)) by (rewrite V; unfold val_defs; apply in_map_iff; exists (z, desc); auto).
  subst x. rewrite <- SN in *.
  pose proof (header_table drv g d h c conf m s _ _ DR HO I NE IS IN O LK) as T.
  replace (swrap 32 (z mod 2 ^ 32)) with z in T; [exact T|]. unfold swrap. cbv zeta. rewrite Z.mod_mod by lia.
  assert (C : (0 <= z \/ z < 0)%Z) by lia. destruct C as [C|C].
  - rewrite (Z.mod_small z) by lia. now replace (z <? 2 ^ (32 - 1))%Z with true by lia.
  - assert (M : (z mod 2 ^ 32 = z + 2 ^ 32)%Z) by (rewrite <- (Z_mod_plus_full z 1), Z.mod_small by lia; lia).
    rewrite M. replace (z + 2 ^ 32 <? 2 ^ (32 - 1))%Z with false by lia. lia.
Qed.
Print Assumptions C48_value_macros_partial.

Definition entry_files : list (string * string) := Eval vm_compute in files_of "drv" entry_db.
Definition entry_h : string := Eval vm_compute in snd (nth 0 entry_files ("", "")).
Definition entry_c : string := Eval vm_compute in snd (nth 1 entry_files ("", "")).
Lemma entry_program : program (the_env 0 "drv" entry_db entry_h entry_c [] no_user no_calls).
Proof. apply programb_ok. vm_compute. reflexivity. Qed.
(** the header defines the macro once; the theorem applies to it *)
Example C48_case : once "Mode_Next_Not_valid" entry_h /\ int_macro (after_header [] entry_h) "Mode_Next_Not_valid" (-1).
Proof.
  assert (O : once "Mode_Next_Not_valid" entry_h) by (vm_compute; reflexivity). split; [exact O|].
  apply (C48_value_macros_partial isort entry_text entry_db entry_list (firstn 14 entry_list) 2147483653 "Mode" [(0%Z, "Off"); ((-1)%Z, "Not valid")]
    (skipn 15 entry_list) (msg_of entry_db 1) (nth 0 (g_sigs (msg_of entry_db 1)) (hd (nth 0 (g_sigs engine) (hd (Build_signal "" "" "" 0 0 false false (Floats.SpecFloat.S754_nan) (Floats.SpecFloat.S754_nan) Intel false U8 U8 [] [] "" "" MxNone) [])) [])) (-1) "Not valid" entry_read) with (drv := "drv") (g := st_g (settings_of "drv" entry_db)) (c := entry_c);
  try (vm_compute; auto; fail).
  - intros k w H. vm_compute in H. destruct H as [H|[]]. discriminate.
  - lia.
  - exact (pr_driver _ entry_program).
  - exact (pr_header _ entry_program).
Qed.

(** ** C46.  Full claim: for every number.  Proved for numbers below 2^32, for data bases with distinct IDs; below 2^31 the macro
    is written as one constant. *)
Theorem C46_cycle_time_partial : forall srt text d es m, read_entries srt text d es -> In m (d_msgs d) ->
  (forall a id n b, es = (a ++ ECycle id n :: b)%list -> g_id m = Z.of_N (plain_id id) -> (forall k c, In (ECycle k c) b -> plain_id k <> plain_id id) ->
     (n < 2 ^ 32)%N -> g_cycle m = Z.of_N n) /\
  ((forall k c, In (ECycle k c) es -> Z.of_N (plain_id k) <> g_id m) -> g_cycle m = 0%Z) /\
  forall drv g h c conf, driver drv g d h c -> header_ok d -> (0 < g_cycle m < 2 ^ 32)%Z -> once (g_name m ++ "_CYC") h ->
    ((g_cycle m < 2 ^ 31)%Z -> const_macro (after_header conf h) (g_name m ++ "_CYC") (g_cycle m)) /\
    forall j C mm, c_macros C = after_header conf h -> eval (S j) C mm [] (EId (g_name m ++ "_CYC")) = Ok (VI U32 (g_cycle m)).
Proof.
  intros srt text d es m R I. split; [|split].
  - intros a id n b E G L N. rewrite (cycle_set _ _ _ _ _ _ _ _ _ R E L I G). apply Z.mod_small. change (2 ^ 32)%N with 4294967296%N in N. change (2 ^ 32)%Z with 4294967296%Z. lia.
  - intros L. eapply cycle_unset; eauto.
  - intros drv g h c conf DR HO C O. split; [intros W; eapply header_cycle; eauto; lia|]. intros j X mm EM. eapply header_cycle_value; eauto.
Qed.
Print Assumptions C46_cycle_time_partial.
Example C46_case : map g_cycle (d_msgs entry_db) = [50; 20; 0]%Z /\ once "Engine_CYC" entry_h /\ const_macro (after_header [] entry_h) "Engine_CYC" 50.
Proof.
  split; [vm_compute; reflexivity|]. assert (O : once "Engine_CYC" entry_h) by (vm_compute; reflexivity). split; [exact O|].
  destruct (C46_cycle_time_partial _ _ _ _ (msg_of entry_db 0) entry_read ltac:(vm_compute; auto)) as (_ & _ & H).
  apply (H "drv" (st_g (settings_of "drv" entry_db)) entry_h entry_c []); [exact (pr_driver _ entry_program)|exact (pr_header _ entry_program)|vm_compute; split; congruence|exact O|vm_compute; reflexivity].
Qed.
Theorem C46_cycle_time_refuted : exists n text d m, text = bo_line 7 "Last" 1 "GW" ++ nl ++ cycle_line 7 n ++ nl /\ scan isort text = Ok d /\
  d_msgs d = [m] /\ g_cycle m <> Z.of_N n.
Proof. exists (2 ^ 32)%N. do 3 eexists. split; [reflexivity|]. split; [vm_compute; reflexivity|]. split; [reflexivity|]. vm_compute. discriminate. Qed.
Print Assumptions C46_cycle_time_refuted.

(** ** C47.  Full claim: for every number of lines without quotes whose intermediate lines do not end in a semicolon.  Proved when
    the lines between the first and the last one end in a visible ASCII character (so they are not empty), and none
    looks like the start of another entry ([entry_ok]).  The last comment on a message or signal counts. *)
Theorem C47_comments_partial : forall srt text d es a id t r b m, read_entries srt text d es -> In m (d_msgs d) -> g_id m = Z.of_N (plain_id id) ->
  (es = (a ++ EComment id None t r :: b)%list -> (forall k u v, In (EComment k None u v) b -> plain_id k <> plain_id id) -> g_comment m = joined t r) /\
  (forall n s, es = (a ++ EComment id (Some n) t r :: b)%list -> In s (g_sigs m) -> (s_name s = n \/ s_name s = n ++ "_ro") ->
     (forall k q u v, In (EComment k (Some q) u v) b -> plain_id k = plain_id id -> s_name s <> q /\ s_name s <> q ++ "_ro") ->
     s_comment s = joined t r).
Proof.
  intros srt text d es a id t r b m R I G. split.
  - intros E L. eapply comment_set; eauto.
  - intros n s E IS SN L. eapply sig_comment_set; eauto.
    + intros k q u v J K. destruct (L _ _ _ _ J K) as [A B]. unfold matches. apply orb_false_iff. split; apply String.eqb_neq; congruence.
    + unfold matches. apply orb_true_iff. destruct SN as [<-|SN]; [left; apply String.eqb_refl|right; rewrite SN; apply String.eqb_refl].
Qed.
Print Assumptions C47_comments_partial.
Example C47_case : g_comment (msg_of entry_db 0) = "first line" ++ nl ++ "second; but not the end" ++ nl ++ "last" /\
  map s_comment (g_sigs (msg_of entry_db 0)) = [""; "a load"; "sum <Checksum:XOR8:3> of all"].
Proof. vm_compute. auto. Qed.
(** an empty line inside a comment is doubled *)
Theorem C47_comments_refuted : exists text d m, getlines text = bo_line 7 "Last" 1 "GW" :: comment_lines_of 7 None "a" [""; "b"] /\
  scan isort text = Ok d /\ d_msgs d = [m] /\ g_comment m <> joined "a" [""; "b"].
Proof.
  exists (sconcat (map (fun l => l ++ nl) (bo_line 7 "Last" 1 "GW" :: comment_lines_of 7 None "a" [""; "b"]))). do 2 eexists.
  split; [vm_compute; reflexivity|]. split; [vm_compute; reflexivity|]. split; [reflexivity|]. vm_compute. discriminate.
Qed.
Print Assumptions C47_comments_refuted.

(** bytes above 127 at the end of an inner line are lost: here the degree sign in UTF-8 *)
Definition degree : string := String (ascii_of_nat 194) (String (ascii_of_nat 176) "").
Theorem C47_bytes_refuted : exists text d m, getlines text = bo_line 7 "Last" 1 "GW" :: comment_lines_of 7 None "a" ["in " ++ degree; "b"] /\
  scan isort text = Ok d /\ d_msgs d = [m] /\ g_comment m = joined "a" ["in"; "b"].
Proof.
  exists (sconcat (map (fun l => l ++ nl) (bo_line 7 "Last" 1 "GW" :: comment_lines_of 7 None "a" ["in " ++ degree; "b"]))). do 2 eexists.
  split; [vm_compute; reflexivity|]. split; [vm_compute; reflexivity|]. split; [reflexivity|]. vm_compute. reflexivity.
Qed.
Print Assumptions C47_bytes_refuted.

(** ** C32.  Full claim: whatever text surrounds the marker.  Proved when no "<" precedes it, and no colon stands in
    the first characters after it, as many as precede the marker; when later comments on signals of the message contain no "<". *)
Theorem C32_checksum_marker_partial : forall srt text d es a id n t r b m i s pre meth op post, read_entries srt text d es ->
  es = (a ++ EComment id (Some n) t r :: b)%list -> joined t r = pre ++ "<Checksum:" ++ meth ++ ":" ++ dec op ++ ">" ++ post ->
  not_in (Ascii.eqb "<") pre -> not_in (fun c => Ascii.eqb ":" c || Ascii.eqb ">" c) meth ->
  not_in (Ascii.eqb ":") (substring 0 (String.length pre - 1) post) -> (op < 2 ^ 32)%N ->
  (forall e u, In e b -> comments_on (Z.of_N (plain_id id)) e = Some u -> not_in (Ascii.eqb "<") u) ->
  In m (d_msgs d) -> g_id m = Z.of_N (plain_id id) ->
  nth_error (g_sigs m) i = Some s -> s_name s = n -> (forall j s', nth_error (g_sigs m) j = Some s' -> s_name s' = n \/ s_name s' = n ++ "_ro" -> j = i) ->
  s_simple s = true -> s_signed s = false -> (0 <= s_start s < 2 ^ 32)%Z -> (0 < s_len s <= 64)%Z -> one_byte s ->
  csm_sig m = Some s /\ g_csmmethod m = meth /\ g_csmop m = Z.of_N op.
Proof.
  intros srt text d es a id n t r b m i s pre meth op post R E J P M Q OP L I G NI SN U SI SG SR LR OB.
  assert (J' : joined t r = pre ++ marker meth op ++ post) by (rewrite J; unfold marker; rewrite !LexLemmas.app_assoc; reflexivity).
  change (2 ^ 32)%N with 4294967296%N in OP.
  destruct (checksum_set srt text d es a id n t r b m i s pre meth op post) as (A & B & C); auto; try lia.
  - unfold number. change (2 ^ 63)%N with 9223372036854775808%N. lia.
  - intros j s' N' M'. apply (U j s' N'). unfold matches in M'. apply orb_true_iff in M' as [X|X]; apply String.eqb_eq in X; auto.
  - unfold csm_sig. rewrite A, B, C. rewrite Z.mod_small by lia. auto.
Qed.
Print Assumptions C32_checksum_marker_partial.
Example C32_case : (exists s, csm_sig (msg_of entry_db 0) = Some s /\ s_name s = "CS" /\ one_byte s) /\ g_csmmethod (msg_of entry_db 0) = "XOR8" /\ g_csmop (msg_of entry_db 0) = 3%Z /\
  "sum <Checksum:XOR8:3> of all" = "sum " ++ "<Checksum:" ++ "XOR8" ++ ":" ++ dec 3 ++ ">" ++ " of all".
Proof.
  split; [|vm_compute; auto]. eexists. split; [vm_compute; reflexivity|]. split; [reflexivity|]. exists 3%Z. intros k K. assert (K' : (0 <= k < 4)%Z) by exact K.
  change ((24 + k) / 8 = 3)%Z. symmetry. apply (Z.div_unique _ 8 3 k); lia.
Qed.
(** a colon after the marker hides it *)
Theorem C32_checksum_marker_refuted : exists text d m s, scan isort text = Ok d /\ d_msgs d = [m] /\ g_sigs m = [s] /\
  s_simple s = true /\ s_signed s = false /\ one_byte s /\ s_comment s = "sum <Checksum:XOR8:3>a:b" /\ g_csm m = None.
Proof.
  exists (dq_text ("BO_ 7 Last: 1 GW" ++ nl ++ " SG_ CS : 0|8@1+ (1,0) [0|0] '' GW" ++ nl ++ "CM_ SG_ 7 CS 'sum <Checksum:XOR8:3>a:b';" ++ nl)).
  do 3 eexists. split; [vm_compute; reflexivity|]. split; [reflexivity|]. split; [reflexivity|]. split; [reflexivity|]. split; [reflexivity|].
  split; [|split; reflexivity]. exists 0%Z. intros k K. assert (K' : (0 <= k < 8)%Z) by exact K.
  change ((0 + k) / 8 = 0)%Z. symmetry. apply (Z.div_unique _ 8 0 k); lia.
Qed.
Print Assumptions C32_checksum_marker_refuted.
