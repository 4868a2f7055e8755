(** Properties C10 and C11: signals that do not fit into the frame of their message. *)

From Coq Require Import ZArith NArith List String Ascii Bool Lia ZifyBool.
From Verif Require Import Base CSyntax Types Formatter SigPrinter Settings MainGen LineParser Scanner App CodecSpec
  DriverSpec DriverProof Chunks Concrete LayoutSpec BadLayout.
Import ListNotations.
Open Scope Z_scope.

(** ** C10.  Full claim: whenever a signal has a bit outside the frame, the emitted source contains the
    error text in place of its expression, which no compiler accepts.  Proved for bit numbers the builder
    can count ([countable]); a run that ends in undefined behaviour emits nothing (C11). *)
Theorem C10_error_text_partial : forall drv d h c m sg,
  generated drv d h c -> In m (d_msgs d) -> g_notempty m = true -> 1 <= g_dlc m <= 64 ->
  In sg (g_sigs m) -> 1 <= s_len sg <= 64 -> 0 <= s_start sg ->
  is_ident (s_name sg) = true -> (String.length (s_name sg) <= 1000)%nat ->
  countable sg (g_dlc m) -> ~ in_frame (s_order sg) (s_start sg) (s_len sg) (g_dlc m) ->
  In (error_line sg) (lines c) /\ no_statement (error_line sg).
Proof.
  intros drv d h c m sg G IM NE D IS L S ID LN C NF. split; [|now apply error_line_bad].
  destruct G as (DI & DL & srt & out & date & dbc & hi & low & nc & ni & nf & rest & SR & DT & DB & HI & LO & GM).
  eapply error_line_emitted; eauto.
  - exact (configure_ok drv out date dbc hi low nc ni nf DI DL DT DB HI LO).
  - repeat split; auto; lia.
Qed.
Print Assumptions C10_error_text_partial.

(** the first signal of this message ends in byte 2 of a frame of two bytes *)
Definition small_dbc : string :=
  ("BO_ 291 Small: 2 E" ++ nl ++ " SG_ Wide : 4|13@1- (1,0) [0|0] """" E" ++ nl
     ++ " SG_ Far : 23|4@0+ (1,0) [0|0] """" E" ++ nl)%string.
Definition run_b (drv : string) (d : dbclist) (h src : string) : bool :=
  (0 <=? d_verhi d) && (d_verhi d <? 2 ^ 32) && (0 <=? d_verlow d) && (d_verlow d <? 2 ^ 32) &&
  is_ident drv && (String.length drv <=? 900)%nat && starts_with_files (settings_of drv d) h src (files_of drv d).
Lemma run_b_ok : forall drv d h src, run_b drv d h src = true -> generated drv d h src.
Proof.
  intros drv d h src H. unfold run_b in H. splitb H. natb. unfold files_of in H0.
  destruct (generate_main isort d (settings_of drv d)) as [l|e|e] eqn:G; try discriminate.
  unfold starts_with_files in H0. destruct l as [|[p1 t1] [|[p2 t2] l]]; try discriminate. splitb H0.
  repeat match goal with X : (_ =? _)%string = true |- _ => apply String.eqb_eq in X end. subst p1 t1 p2 t2.
  split; [assumption|]. split; [assumption|].
  exists isort, "out"%string, None, "sample.dbc"%string, (d_verhi d), (d_verlow d), false, false, false, l. cbv zeta.
  split; [apply isort_sorts|]. split; [exact Logic.I|]. split; [reflexivity|]. split; [lia|]. split; [lia|].
  exact G.
Qed.
Definition h_of (d : dbclist) : string := snd (nth 0 (files_of "drv" d) (""%string, ""%string)).
Definition c_of (d : dbclist) : string := snd (nth 1 (files_of "drv" d) (""%string, ""%string)).

Definition m_of (d : dbclist) (i : nat) : message := nth i (d_msgs d) default_message.

Example C10_example :
  let d := db_of small_dbc in let m := m_of d 0 in
  generated "drv" d (h_of d) (c_of d) /\ In m (d_msgs d) /\ g_notempty m = true /\ g_dlc m = 2 /\
  exists a b, g_sigs m = [a; b] /\ s_name a = "Wide"%string /\ s_order a = Intel /\ s_start a = 4 /\ s_len a = 13 /\
    s_name b = "Far"%string /\ s_order b = Motorola /\ s_start b = 23 /\ s_len b = 4 /\
    countable a 2 /\ countable b 2 /\ ~ in_frame (s_order a) (s_start a) (s_len a) 2 /\ ~ in_frame (s_order b) (s_start b) (s_len b) 2.
Proof.
  cbv zeta. split; [apply run_b_ok; vm_compute; reflexivity|].
  split; [vm_compute; auto|]. split; [vm_compute; reflexivity|]. split; [vm_compute; reflexivity|].
  eexists _, _. split; [vm_compute; reflexivity|]. cbn [s_name s_order s_start s_len].
  repeat (split; [reflexivity|]).
  split; [left; reflexivity|]. split; [left; reflexivity|].
  rewrite in_frame_intel, in_frame_motorola by lia. unfold mirror. vm_compute. split; intros H; discriminate.
Qed.

(** not for all: bit numbers above 511 are taken for 511 and bit numbers above 65535 wrap around, so that
    expressions for other bits are emitted and no error text at all *)
Definition edge_dbc : string :=
  ("BO_ 291 Edge: 64 E" ++ nl ++ " SG_ Wide : 510|8@1+ (1,0) [0|0] """" E" ++ nl)%string.
Definition wrap_dbc : string :=
  ("BO_ 291 Wrap: 8 E" ++ nl ++ " SG_ Wide : 65536|8@1+ (1,0) [0|0] """" E" ++ nl)%string.
Lemma no_text : forall p t, String.index 0 p t = None -> p <> ""%string ->
  forall n, substring n (String.length p) t <> p.
Proof. intros p t H N n. eapply index_correct3; eauto. lia. Qed.

Theorem C10_error_text_refuted : exists text d h c m sg,
  scan isort text = Ok d /\ generated "drv" d h c /\ In m (d_msgs d) /\ g_notempty m = true /\ g_dlc m = 64 /\
  In sg (g_sigs m) /\ s_len sg = 8 /\ s_order sg = Intel /\ s_start sg = 510 /\
  ~ in_frame (s_order sg) (s_start sg) (s_len sg) (g_dlc m) /\
  forall n, substring n (String.length error_text) c <> error_text.
Proof.
  exists edge_dbc, (db_of edge_dbc), (h_of (db_of edge_dbc)), (c_of (db_of edge_dbc)), (m_of (db_of edge_dbc) 0). eexists.
  split; [vm_compute; reflexivity|]. split; [apply run_b_ok; vm_compute; reflexivity|].
  split; [vm_compute; auto|]. split; [vm_compute; reflexivity|]. split; [vm_compute; reflexivity|].
  split; [vm_compute; left; reflexivity|]. cbn [s_len s_order s_start]. repeat (split; [reflexivity|]).
  split; [rewrite in_frame_intel by lia; vm_compute; intros H; discriminate|].
  apply no_text; [vm_compute; reflexivity|discriminate].
Qed.
Print Assumptions C10_error_text_refuted.
Theorem C10_wrapped_start_refuted : exists text d h c m sg,
  scan isort text = Ok d /\ generated "drv" d h c /\ In m (d_msgs d) /\ g_notempty m = true /\ g_dlc m = 8 /\
  In sg (g_sigs m) /\ s_len sg = 8 /\ s_order sg = Intel /\ s_start sg = 65536 /\
  ~ in_frame (s_order sg) (s_start sg) (s_len sg) (g_dlc m) /\
  forall n, substring n (String.length error_text) c <> error_text.
Proof.
  exists wrap_dbc, (db_of wrap_dbc), (h_of (db_of wrap_dbc)), (c_of (db_of wrap_dbc)), (m_of (db_of wrap_dbc) 0). eexists.
  split; [vm_compute; reflexivity|]. split; [apply run_b_ok; vm_compute; reflexivity|].
  split; [vm_compute; auto|]. split; [vm_compute; reflexivity|]. split; [vm_compute; reflexivity|].
  split; [vm_compute; left; reflexivity|]. cbn [s_len s_order s_start]. repeat (split; [reflexivity|]).
  split; [rewrite in_frame_intel by lia; vm_compute; intros H; discriminate|].
  apply no_text; [vm_compute; reflexivity|discriminate].
Qed.
Print Assumptions C10_wrapped_start_refuted.

(** ** C11.  Full claim: the builder never indexes its tables out of bounds.  Exact result for countable bit
    numbers: it works through unless a Motorola signal starts inside the frame and leaves it (the checksum
    signal, if there is one, also with respect to a table of eight bytes). *)
Theorem C11_in_bounds_partial : forall m, 0 <= g_dlc m <= 64 ->
  (forall sg, In sg (g_sigs m) -> 1 <= s_len sg <= 64 /\ 0 <= s_start sg /\
     (String.length (s_name sg) <= 1000)%nat /\ countable sg (g_dlc m)) ->
  (forall sg, csm_sig m = Some sg -> In sg (g_sigs m) /\ countable sg 8 /\ ~ leaves_frame sg 8) ->
  ((exists x, load_message m = Ok x) <-> forall sg, In sg (g_sigs m) -> ~ leaves_frame sg (g_dlc m)).
Proof.
  intros m D H HC. split.
  - intros [x LX] sg IS (O & B & NF). destruct (load_message_exprs m x LX) as (_ & tb & BE).
    destruct (H sg IS) as (L & S & _). eapply build_unsafe; [..|exact BE]; eauto; rewrite ?repeat_length; try lia.
    rewrite Z2Nat.id by lia. exact NF.
  - intros NL.
    assert (SAFE : forall sg n, ~ leaves_frame sg n -> 1 <= s_len sg -> 0 <= s_start sg -> safe_layout sg n).
    { intros sg n K L S. unfold safe_layout, leaves_frame in *. destruct (s_order sg) eqn:O; [now left|]. right.
      destruct (Z.lt_ge_cases (s_start sg) (8 * n)) as [B|B]; [|left; lia]. right.
      apply in_frame_motorola; [lia|lia|].
      destruct (Z.lt_ge_cases (mirror (s_start sg) + s_len sg - 1) (8 * n)) as [C|C]; [exact C|]. exfalso. apply K.
      split; [reflexivity|]. split; [exact B|]. rewrite in_frame_motorola by lia. lia. }
    apply load_safe; auto.
    + intros sg I. destruct (H sg I) as (L & S & N & C). split; [repeat split; auto; lia|]. split; [exact C|].
      apply SAFE; auto; try lia.
    + intros sg E. destruct (HC sg E) as (I & C8 & K). destruct (H sg I) as (L & S & N & C).
      split; [repeat split; auto; lia|]. split; [exact C8|]. apply SAFE; auto; lia.
Qed.
Print Assumptions C11_in_bounds_partial.

(** messages that satisfy the hypotheses: signals outside the frame, but none that leaves it *)
Example C11_example :
  let m := m_of (db_of small_dbc) 0 in
  0 <= g_dlc m <= 64 /\ (forall sg, In sg (g_sigs m) -> 1 <= s_len sg <= 64 /\ 0 <= s_start sg /\
     (String.length (s_name sg) <= 1000)%nat /\ countable sg (g_dlc m)) /\ csm_sig m = None /\
  forall sg, In sg (g_sigs m) -> ~ leaves_frame sg (g_dlc m).
Proof.
  cbv zeta. split; [vm_compute; split; discriminate|].
  assert (E : exists a b, g_sigs (m_of (db_of small_dbc) 0) = [a; b] /\ s_order a = Intel /\ s_start a = 4 /\ s_len a = 13 /\
    s_order b = Motorola /\ s_start b = 23 /\ s_len b = 4 /\ s_name a = "Wide"%string /\ s_name b = "Far"%string).
  { eexists _, _. split; [vm_compute; reflexivity|]. repeat split. }
  destruct E as (a & b & -> & A1 & A2 & A3 & B1 & B2 & B3 & NA & NB).
  change (g_dlc (m_of (db_of small_dbc) 0)) with 2. unfold countable, first_bit, leaves_frame.
  split.
  - intros sg [<-|[<-|[]]]; rewrite ?A1, ?A2, ?A3, ?NA, ?B1, ?B2, ?B3, ?NB; cbn [String.length]; lia.
  - split; [vm_compute; reflexivity|].
    intros sg [<-|[<-|[]]]; rewrite ?A1, ?A2, ?A3, ?B1, ?B2, ?B3; [intros (X & _); discriminate|lia].
Qed.

(** a Motorola signal of 16 bits in a frame of one byte: the scanner accepts it, the generator then writes
    behind the end of its table *)
Definition over_dbc : string :=
  ("BO_ 291 Over: 1 E" ++ nl ++ " SG_ Wide : 7|16@0+ (1,0) [0|0] """" E" ++ nl)%string.
Theorem C11_in_bounds_refuted : exists text d m sg w,
  scan isort text = Ok d /\ d_msgs d = [m] /\ g_dlc m = 1 /\ g_sigs m = [sg] /\
  s_order sg = Motorola /\ s_start sg = 7 /\ s_len sg = 16 /\
  generate_main isort d (settings_of "drv" d) = UB w.
Proof.
  exists over_dbc, (db_of over_dbc). do 3 eexists.
  split; [vm_compute; reflexivity|]. split; [vm_compute; reflexivity|].
  split; [reflexivity|]. split; [reflexivity|]. repeat (split; [reflexivity|]). vm_compute. reflexivity.
Qed.
Print Assumptions C11_in_bounds_refuted.
