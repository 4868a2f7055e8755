(** Property C43: the source lines reach the file in full length. *)

From Coq Require Import ZArith NArith List String Ascii Bool Lia ZifyBool Permutation.
From Verif Require Import Base Dbl CSyntax CSem CRun Types Formatter Settings MainGen LineParser Scanner App CodecSpec MsgSpec PPProof LexLemmas
  DriverSpec HeaderSpec CodecEnv Concrete Samples Props_scan Props_codec LineSpec LineThms LineDefs.
Import ListNotations.
Open Scope Z_scope.

(** ** C43.  Full claim: every line, for every message.  Proved for the lines that grow with the signals: the
    assignments of Unpack and Pack and the macros of the header, when names have at most 1000 characters and those of the signals in one byte
    together fit into the line buffer ([short_lines], part of [driver]; signals that do not overlap always do).

    The assignment of a signal in Unpack has one term for each byte with bits of the signal, and they cover the
    signal. *)
Theorem C43_unpack_lines_partial : forall drv g d h c m sg, driver drv g d h c -> header_ok d -> In m (d_msgs d) -> g_notempty m = true -> In sg (g_sigs m) ->
  exists ps, NoDup (map p_byte ps) /\ (forall p, In p ps -> share sg p) /\ (forall k, 0 <= k < s_len sg -> exists p, In p ps /\ p_k p <= k < p_k p + p_n p) /\
    In (assign_line sg ps) (lines c).
Proof. exact unpack_lines. Qed.
Print Assumptions C43_unpack_lines_partial.

(** the line of a byte in both forms of Pack has one term for each signal with bits in the byte, however many *)
Theorem C43_pack_lines_partial : forall drv g d h c m i st, driver drv g d h c -> header_ok d -> In m (d_msgs d) -> g_notempty m = true -> 0 <= i < g_dlc m ->
  exists terms, Forall2 (fun sg t => exists p, share sg p /\ p_byte p = i /\ t = store_term (s_name sg) p) (filter (fun sg => in_byte sg i) (g_sigs m)) terms /\
    (terms <> [] -> In (fill_line (buffer st) i terms) (lines c)).
Proof. exact pack_lines. Qed.
Print Assumptions C43_pack_lines_partial.

(** in the header: the macros of each message, and those of its value tables with the lines that guard them *)
Theorem C43_define_lines_partial : forall drv g d h c m, driver drv g d h c -> header_ok d -> In m (d_msgs d) ->
  (In ("#define " ++ g_name m ++ "_IDE (" ++ pu (g_ext m) ++ "U)") (lines h) /\ In ("#define " ++ g_name m ++ "_DLC (" ++ pu (g_dlc m) ++ "U)") (lines h) /\
   In ("#define " ++ g_name m ++ "_CANID (" ++ px (g_id m) ++ "U)") (lines h) /\
   ((0 < g_cycle m)%Z -> In ("#define " ++ g_name m ++ "_CYC (" ++ decZ (swrap 32 (g_cycle m)) ++ "U)") (lines h)) /\
   (g_notempty m = true -> forall sg t v, In sg (g_sigs m) -> In (t, v) (s_valdefs sg) ->
      let x := s_name sg ++ "_" ++ g_name m ++ "_" ++ t in In ("#ifndef " ++ x) (lines h) /\ In ("#define " ++ x ++ " (" ++ decZ (swrap 32 v) ++ ")") (lines h)))%string.
Proof. exact define_lines. Qed.
Print Assumptions C43_define_lines_partial.

(** ** A run *)
Example C43_define_case : In "#define Mode_Next_Not_valid (-1)"%string (lines entry_h) /\ In "#define Engine_CYC (50U)"%string (lines entry_h).
Proof.
  pose proof (C43_define_lines_partial _ _ _ _ _ (msg_of entry_db 0) (pr_driver _ entry_program) (pr_header _ entry_program) ltac:(vm_compute; auto)) as (_ & _ & _ & A & _).
  pose proof (C43_define_lines_partial _ _ _ _ _ (msg_of entry_db 1) (pr_driver _ entry_program) (pr_header _ entry_program) ltac:(vm_compute; auto)) as (_ & _ & _ & _ & B).
  split; [|apply A; reflexivity].
  assert (N : g_sigs (msg_of entry_db 1) <> []) by (vm_compute; discriminate). destruct (g_sigs (msg_of entry_db 1)) as [|sg l] eqn:E; [contradiction|].
  assert (V : s_name sg = "Mode"%string /\ In ("Not_valid"%string, 4294967295) (s_valdefs sg)) by (vm_compute in E; injection E as <- _; vm_compute; auto).
  assert (G : g_name (msg_of entry_db 1) = "Next"%string) by (vm_compute; reflexivity).
  destruct (B eq_refl sg "Not_valid"%string 4294967295 (or_introl eq_refl) (proj2 V)) as [_ D]. rewrite (proj1 V), G in D. exact D.
Qed.

Example C43_example : forall sg, In sg (g_sigs engine) ->
  exists ps, (forall k, 0 <= k < s_len sg -> exists p, In p ps /\ p_k p <= k < p_k p + p_n p) /\ In (assign_line sg ps) (lines sample_c).
Proof.
  intros sg I. destruct (C43_unpack_lines_partial _ _ _ _ _ engine sg (pr_driver _ sample_program) (pr_header _ sample_program)) as (ps & _ & _ & A & B).
  - vm_compute. auto.
  - reflexivity.
  - exact I.
  - exists ps. split; [exact A|exact B].
Qed.

(** ** Many signals in one byte *)
(** 260 signals, as multiplexed messages have them, all in byte 0; names of at most 32 characters *)
Definition crowd_signal (n : nat) : string :=
  (" SG_ BodyControllerMuxedSignal_" ++ dec (N.of_nat n) ++ " : 0|8@1+ (1,0) [0|0] """" GW" ++ nl)%string.
Definition crowd_text : string := ("BO_ 291 Engine: 8 ECU" ++ nl ++ String.concat "" (map crowd_signal (seq 0 260)))%string.
Definition crowd_db : dbclist := Eval vm_compute in db_of crowd_text.
Definition crowd_msg : message := nth 0 (d_msgs crowd_db) engine.

Lemma concat_longer : forall t l, 0 <= Z.of_nat (String.length (String.concat " | " l)) /\
  Z.of_nat (String.length t) + Z.of_nat (String.length (String.concat " | " l)) <= Z.of_nat (String.length (String.concat " | " (t :: l))).
Proof. intros t [|a l]; cbn [String.concat String.length]; rewrite ?app_len; lia. Qed.
Lemma terms_long : forall P sgs terms, Forall2 P sgs terms -> (forall sg t, P sg t -> exists p, t = store_term (s_name sg) p) ->
  fold_right (fun sg n => Z.of_nat (String.length (s_name sg)) + 11 + n) 0 sgs <= Z.of_nat (String.length (String.concat " | " terms)).
Proof.
  intros P sgs terms F H. induction F as [|sg t sgs terms A F IH]; [cbn; lia|]. destruct (H _ _ A) as (p & E).
  destruct (concat_longer t terms) as [_ B]. cbn [fold_right].
  enough (Z.of_nat (String.length (s_name sg)) + 11 <= Z.of_nat (String.length t)) by lia.
  subst t. clear. unfold store_term. destruct (p_k p =? 0); [destruct (p_lo p =? 0)|]; rewrite !app_len; cbn [String.length]; lia.
Qed.

Definition crowd_start : string := "  _d[0] |= (uint8_t) ( (_m->BodyControllerMuxedSignal_0 & (0xFFU)) | ".
Definition crowd_check (m : message) (s : settings) (r : res (list (string * string))) : bool :=
  match r with
  | Ok ((p1, h) :: (p2, c) :: _) =>
      (p1 =? f_coreh_path (st_f s))%string && (p2 =? f_corec_path (st_f s))%string && forallb (fun l => Z.of_nat (String.length l) <? 10000) (lines c) &&
      (10000 <=? fold_right (fun sg n => Z.of_nat (String.length (s_name sg)) + 11 + n) 0 (filter (fun sg => in_byte sg 0) (g_sigs m))) &&
      existsb (fun l => String.prefix crowd_start l && match last_char l with Some ";"%char => false | _ => true end) (lines c)
  | _ => false
  end.
Lemma crowd_checked : forall m s r, crowd_check m s r = true -> exists h c rest, r = Ok ((f_coreh_path (st_f s), h) :: (f_corec_path (st_f s), c) :: rest) /\
  (forall st terms, Forall2 (fun sg t => exists p, share sg p /\ p_byte p = 0 /\ t = store_term (s_name sg) p) (filter (fun sg => in_byte sg 0) (g_sigs m)) terms ->
     ~ In (fill_line (buffer st) 0 terms) (lines c)) /\
  exists l, In l (lines c) /\ String.prefix crowd_start l = true /\ last_char l <> Some ";"%char.
Proof.
  intros m s r H. destruct r as [[|[p1 h] [|[p2 c] rest]]| |]; try discriminate H. unfold crowd_check in H.
  apply andb_true_iff in H. destruct H as [H H5]. apply andb_true_iff in H. destruct H as [H H4]. apply andb_true_iff in H. destruct H as [H H3].
  apply andb_true_iff in H. destruct H as [H1 H2]. apply String.eqb_eq in H1. apply String.eqb_eq in H2. subst p1 p2. exists h, c, rest. split; [reflexivity|]. split.
  - intros st terms F I. rewrite forallb_forall in H3. specialize (H3 _ I). apply Z.ltb_lt in H3. apply Z.leb_le in H4.
    pose proof (terms_long _ _ _ F ltac:(intros sg t (p & _ & _ & E); eauto)) as T. unfold fill_line in H3. rewrite !app_len in H3. lia.
  - apply existsb_exists in H5. destruct H5 as (l & I & E). apply andb_true_iff in E. destruct E as [E1 E2]. exists l. split; [exact I|]. split; [exact E1|].
    intros E. rewrite E in E2. discriminate.
Qed.

(** no line of the source is the line for byte 0: it is cut off, and what is left has no semicolon *)
Theorem C43_pack_lines_refuted : exists text d h c rest m, scan isort text = Ok d /\
  generate_main isort d (settings_of "drv" d) = Ok ((f_coreh_path (st_f (settings_of "drv" d)), h) :: (f_corec_path (st_f (settings_of "drv" d)), c) :: rest) /\
  In m (d_msgs d) /\ msg_ok m /\ g_notempty m = true /\ header_ok d /\ (forall sg, In sg (g_sigs m) -> (String.length (s_name sg) <= 32)%nat) /\
  (forall st terms, Forall2 (fun sg t => exists p, share sg p /\ p_byte p = 0 /\ t = store_term (s_name sg) p) (filter (fun sg => in_byte sg 0) (g_sigs m)) terms ->
     ~ In (fill_line (buffer st) 0 terms) (lines c)) /\
  exists l, In l (lines c) /\ String.prefix crowd_start l = true /\ last_char l <> Some ";"%char.
Proof.
  assert (X : crowd_check crowd_msg (settings_of "drv" crowd_db) (generate_main isort crowd_db (settings_of "drv" crowd_db)) = true) by (vm_compute; reflexivity).
  destruct (crowd_checked _ _ _ X) as (h & c & rest & G & N & E).
  exists crowd_text, crowd_db, h, c, rest, crowd_msg.
  split; [vm_compute; reflexivity|]. split; [exact G|]. split; [now left|].
  split; [apply msg_okb_ok; vm_compute; reflexivity|]. split; [reflexivity|]. split; [apply header_okb_ok; vm_compute; reflexivity|]. split; [|split; assumption].
  intros sg I. assert (Y : forallb (fun sg => (String.length (s_name sg) <=? 32)%nat) (g_sigs crowd_msg) = true) by (vm_compute; reflexivity).
  rewrite forallb_forall in Y. apply Nat.leb_le. now apply Y.
Qed.
Print Assumptions C43_pack_lines_refuted.

(** ** A long description in a value table *)
Definition wordy : string := Eval vm_compute in String.concat "" (repeat "LongWording"%string 400).
Definition wordy_text : string := ("BO_ 7 Panel: 8 ECU" ++ nl ++ " SG_ Mode : 0|4@1+ (1,0) [0|0] """" GW" ++ nl ++ nl ++ "VAL_ 7 Mode 1 """ ++ wordy ++ """ ;" ++ nl)%string.
Definition wordy_db : dbclist := Eval vm_compute in db_of wordy_text.
(** the name in the line that guards the macro is cut, so that the guard asks for another macro *)
Theorem C43_define_lines_refuted : exists text d h c rest m sg t v, scan isort text = Ok d /\
  generate_main isort d (settings_of "drv" d) = Ok ((f_coreh_path (st_f (settings_of "drv" d)), h) :: (f_corec_path (st_f (settings_of "drv" d)), c) :: rest) /\
  In m (d_msgs d) /\ In sg (g_sigs m) /\ In (t, v) (s_valdefs sg) /\
  let x := (s_name sg ++ "_" ++ g_name m ++ "_" ++ t)%string in
  In ("#define " ++ x ++ " (1)")%string (lines h) /\ ~ In ("#ifndef " ++ x)%string (lines h).
Proof.
  set (r := generate_main isort wordy_db (settings_of "drv" wordy_db)).
  pose (x := ("Mode_Panel_" ++ wordy)%string).
  assert (X : match r with
    | Ok ((p1, h) :: (p2, c) :: _) => (p1 =? f_coreh_path (st_f (settings_of "drv" wordy_db)))%string && (p2 =? f_corec_path (st_f (settings_of "drv" wordy_db)))%string &&
        existsb (String.eqb ("#define " ++ x ++ " (1)")) (lines h) && negb (existsb (String.eqb ("#ifndef " ++ x)) (lines h))
    | _ => false end = true) by (vm_compute; reflexivity).
  destruct r as [[|[p1 h] [|[p2 c] rest]]| |] eqn:R; try discriminate X. unfold r in R.
  apply andb_true_iff in X. destruct X as [X X4]. apply andb_true_iff in X. destruct X as [X X3]. apply andb_true_iff in X. destruct X as [X1 X2].
  apply String.eqb_eq in X1. apply String.eqb_eq in X2. subst p1 p2.
  exists wordy_text, wordy_db, h, c, rest, (msg_of wordy_db 0), (nth 0 (g_sigs (msg_of wordy_db 0)) (nth 0 (g_sigs engine) (hd (Build_signal "" "" "" 0 0 false false (Floats.SpecFloat.S754_nan) (Floats.SpecFloat.S754_nan) Intel false U8 U8 [] [] "" "" MxNone) []))), wordy, 1.
  split; [vm_compute; reflexivity|]. split; [exact R|]. split; [vm_compute; auto|]. split; [vm_compute; auto|]. split; [vm_compute; auto|]. intros y.
  assert (E : y = x) by (vm_compute; reflexivity). rewrite E. split.
  - apply existsb_exists in X3. destruct X3 as (l & I & L). apply String.eqb_eq in L. now rewrite L.
  - intros I. apply negb_true_iff in X4. apply Bool.not_true_iff_false in X4. apply X4. apply existsb_exists. eexists. split; [exact I|apply String.eqb_refl].
Qed.
Print Assumptions C43_define_lines_refuted.
