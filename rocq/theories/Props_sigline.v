(** Property C51: signals and messages are read as they are declared.

    [sig_line], [file_text] print declarations (SigSpec.v); [parse_signal_line] and [scan] are the reader.
    [read_as d s]: start, length, byte order, sign, factor, offset, unit, receivers and multiplexing of [s] are those of [d]. *)

From Coq Require Import Permutation ZArith NArith List String Ascii Bool Lia.
From Verif Require Import Base Dbl Types LineParser Scanner DriverSpec ScanSpec SigSpec SigLine SigFile Concrete MainGen.
Import ListNotations.
Open Scope string_scope.

(** ** C51.  Full claim: every printed line is accepted and read as declared.  Missing: units with a colon, factors and
    offsets below 1e-9 (see the refutations), and numbers for which the choice of the integer types overflows. *)
Theorem C51_signal_line_partial : forall d r, decl_ok d -> tiny (sd_factor d) = false -> tiny (sd_offset d) = false ->
  parse_signal_line (sig_line d) = Ok r -> exists s, r = Some s /\ read_as d s.
Proof. exact line_as. Qed.
Print Assumptions C51_signal_line_partial.

(** whole files: the messages are the declared ones, in their order, with all their signals *)
Theorem C51_file_partial : forall srt bs d, sorts srt -> (forall b, In b bs -> block_ok b) ->
  scan srt (file_text bs) = Ok d -> Forall2 read_message (file_msgs bs) (d_msgs d).
Proof. exact file_read. Qed.
Print Assumptions C51_file_partial.

Definition plain_sig (n : string) (start len : N) : sigdecl :=
  {| sd_name := n; sd_mark := MarkNone; sd_start := start; sd_len := len; sd_order := Intel; sd_signed := false;
     sd_factor := NInt 1; sd_offset := NInt 0; sd_low := "0"; sd_high := "0"; sd_unit := ""; sd_recs := ["GW"] |}.
Definition rich_sig : sigdecl :=
  {| sd_name := "Speed"; sd_mark := MarkValue 3; sd_start := 23; sd_len := 12; sd_order := Motorola; sd_signed := true;
     sd_factor := NDec false "0" "25" (Some (-1)%Z); sd_offset := NInt (-40); sd_low := "-1.5E+3"; sd_high := "2"; sd_unit := "km/h"; sd_recs := ["GW"; "Dash_2"] |}.
Definition sample_blocks : list block :=
  [ BLine ("VERSION " ++ dq ++ dq); BLine "BU_: ECU GW Dash_2"; BLine "";
    BMsg {| md_id := 2147483939; md_name := "Engine"; md_dlc := 8; md_tx := "ECU"; md_sigs := [rich_sig; plain_sig "SG_first" 0 8] |};
    BLine "";
    BMsg {| md_id := 5; md_name := "SG_Empty"; md_dlc := 1; md_tx := "GW"; md_sigs := [] |};
    BMsg {| md_id := 6; md_name := "Last"; md_dlc := 2; md_tx := "GW"; md_sigs := [plain_sig "B" 8 8; plain_sig "A" 0 8] |};
    BLine "BO_TX_BU_ 6 : GW,ECU;"; BLine ("CM_ SG_ 6 A " ++ dq ++ "text" ++ dq ++ ";") ].
Lemma rich_ok : clear_decl rich_sig.
Proof.
  split; [|split; vm_compute; reflexivity]. constructor; cbn; try (vm_compute; reflexivity); try discriminate.
  - split; [discriminate|reflexivity].
  - split; (split; [discriminate|reflexivity]).
  - vm_compute. auto.
  - split; [discriminate|reflexivity].
  - split; [discriminate|reflexivity].
  - intros x [<-|[<-|[]]]; split; try discriminate; reflexivity.
Qed.
Lemma plain_ok : forall n start len, node_name n -> (start < 2 ^ 32)%N -> (len < 2 ^ 8)%N -> clear_decl (plain_sig n start len).
Proof.
  intros n start len N S L. split; [|split; vm_compute; reflexivity]. constructor; cbn; auto; try (vm_compute; auto; fail); try discriminate.
  - split; [discriminate|reflexivity].
  - split; [discriminate|reflexivity].
  - intros x [<-|[]]; split; try discriminate; reflexivity.
Qed.
Example C51_case : (forall b, In b sample_blocks -> block_ok b) /\
  sig_line rich_sig = " SG_ Speed m3 : 23|12@0- (0.25E-1,-40) [-1.5E+3|2] " ++ dq ++ "km/h" ++ dq ++ " GW,Dash_2" /\
  exists d, scan isort (file_text sample_blocks) = Ok d /\
    map (fun m => (g_name m, g_id m, g_ext m, map s_name (g_sigs m))) (d_msgs d) =
      [("Engine", 291%Z, 1%Z, ["SG_first"; "Speed_ro"]); ("SG_Empty", 5%Z, 0%Z, []); ("Last", 6%Z, 0%Z, ["A"; "B"])].
Proof.
  split; [|split; [reflexivity|]].
  - assert (O : forall l, lacks NL l && negb (String.prefix "BO_ " l) && (negb (mentions "SG_" l) || negb (spaced_colon l)) = true -> other_line l).
    { intros l H. unfold other_line. destruct (lacks NL l), (String.prefix "BO_ " l), (mentions "SG_" l), (spaced_colon l); cbn in H; try discriminate; auto. }
    assert (NN : forall s, negb (String.eqb s "") && all_chars node_char s = true -> node_name s).
    { intros s H. apply andb_true_iff in H as [H1 H2]. split; auto. intros ->. discriminate. }
    intros b B. repeat destruct B as [<-|B]; try contradiction; cbn [block_ok]; try (apply O; vm_compute; reflexivity);
      (constructor; cbn [md_id md_name md_dlc md_tx md_sigs]; [vm_compute; reflexivity|split; [vm_compute; reflexivity|split; [vm_compute; reflexivity|lia]]|apply NN; reflexivity|apply NN; reflexivity|]).
    + intros s [<-|[<-|[]]]; [apply rich_ok|apply plain_ok; [apply NN; reflexivity|vm_compute; reflexivity|vm_compute; reflexivity]].
    + intros s [].
    + intros s [<-|[<-|[]]]; (apply plain_ok; [apply NN; reflexivity|vm_compute; reflexivity|vm_compute; reflexivity]).
  - eexists. split; vm_compute; reflexivity.
Qed.

(** a tiny factor discards the offset as well *)
Theorem C51_tiny_refuted : exists d s, decl_ok d /\ parse_signal_line (sig_line d) = Ok (Some s) /\
  sd_offset d = NInt 5 /\ s_offset s = dbl_of_Z 0 /\ s_factor s = dbl_of_Z 1 /\ s_simple s = true.
Proof.
  exists {| sd_name := "A"; sd_mark := MarkNone; sd_start := 0; sd_len := 8; sd_order := Intel; sd_signed := false;
     sd_factor := NDec false "0" "0000000001" None; sd_offset := NInt 5; sd_low := "0"; sd_high := "0"; sd_unit := ""; sd_recs := ["GW"] |}. eexists.
  split; [|vm_compute; repeat split; reflexivity]. constructor; cbn; try (vm_compute; auto; fail); try discriminate.
  - split; [discriminate|reflexivity].
  - split; (split; [discriminate|reflexivity]).
  - split; [discriminate|reflexivity].
  - split; [discriminate|reflexivity].
  - intros x [<-|[]]; split; try discriminate; reflexivity.
Qed.
Print Assumptions C51_tiny_refuted.
(** a unit with a colon between blanks makes the line unreadable: the signal is lost *)
Theorem C51_unit_refuted : exists unit, no_quote unit = true /\ lacks NL unit = true /\
  parse_signal_line (sg_line "A" "" 0 8 Intel false "1" "0" "0" "0" unit ["GW"]) = Ok None.
Proof. exists "m : s". vm_compute. auto. Qed.
Print Assumptions C51_unit_refuted.
(** a large raw range with an integer factor overflows int64_t while the types are chosen *)
Theorem C51_types_refuted : exists d what, sd_factor d = NInt 3 /\ sd_offset d = NInt 0 /\ sd_len d = 63%N /\ parse_signal_line (sig_line d) = UB what.
Proof.
  exists {| sd_name := "A"; sd_mark := MarkNone; sd_start := 0; sd_len := 63; sd_order := Intel; sd_signed := false;
     sd_factor := NInt 3; sd_offset := NInt 0; sd_low := "0"; sd_high := "0"; sd_unit := ""; sd_recs := ["GW"] |}. eexists. vm_compute. repeat split.
Qed.
Print Assumptions C51_types_refuted.
