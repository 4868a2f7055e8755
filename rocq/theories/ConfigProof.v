(** The configuration files, line by line. *)

From Coq Require Import ZArith NArith List String Ascii Bool Lia ZifyBool Permutation.
From Verif Require Import Base Dbl CSyntax CSem CRun Types Formatter SigPrinter Writer Settings StaticText MainGen App CodecSpec MsgSpec
  LexLemmas ScanLemmas PPProof BodyLemmas UnpackBody PackProof SourceFun DriverSpec DriverProof HeaderProof StructSpec GuardSpec GuardUtil BadLayout FilesSpec FilesProof FilesThms.
Import ListNotations.
Open Scope string_scope.

(** ** The lines of the template between the switches *)

Definition cg0 : list string :=
  ["#pragma once";
   "";
   "/* include common dbccode configurations */";
   "#include ""dbccodeconf.h""";
   "";
   "";
   "/* ------------------------------------------------------------------------- *";
   "  This define enables using CAN message structs with bit-fielded signals";
   "  layout.";
   "";
   "  Note(!): bit-feild was not tested properly. */";
   ""].
Definition cg1 : list string :=
  ["";
   "";
   "/* ------------------------------------------------------------------------- *";
   "  This macro enables using CAN message descriptive struct packing functions";
   "  (by default signature of pack function intakes a few simple typed params";
   "  for loading data, len, etc). To compile you need to define the struct";
   "  __CoderDbcCanFrame_t__ which must have fields:";
   "";
   "    u32 MsgId (CAN Frame message ID)";
   "    u8 DLC (CAN Frame payload length field)";
   "    u8 Data[8] (CAN Frame payload data)";
   "    u8 IDE (CAN Frame Extended (1) / Standard (0) ID type)";
   "";
   "  This struct definition have to be placed (or be included) in dbccodeconf.h */";
   ""].
Definition cg2 : list string :=
  ["";
   "";
   "/* ------------------------------------------------------------------------- *";
   "  All the signals which have values of factor != 1 or offset != 0";
   "  will be named in message struct with posfix '_ro'. Pack to payload";
   "  operations will be made on this signal value as well as unpack from payload.";
   "";
   "  USE_SIGFLOAT macro makes some difference:";
   "";
   "  1. All the '_ro' fields will have a pair field with '_phys' postfix.";
   "  If only offset != 0 is true then the type of '_phys' signal is the same";
   "  as '_ro' signal. In other case the type will be @sigfloat_t which";
   "  have to be defined in user dbccodeconf.h";
   "";
   "  2. In pack function '_ro' signal will be rewritten by '_phys' signal, which";
   "  requires from user to use ONLY '_phys' signal for packing frame";
   "";
   "  3. In unpack function '_phys' signal will be written by '_ro' signal.";
   "  User have to use '_phys' signal to read physical value. */";
   ""].
Definition cg3 : list string :=
  ["";
   "";
   "/* ------------------------------------------------------------------------- *";
   "  Note(!) that the ""canmonitorutil.h"" must be accessed in include path:";
   "";
   "  This macro adds:";
   "";
   "  - monitor field @mon1 to message struct";
   "";
   "  - capture system tick in unpack function and save value to mon1 field";
   "  to provide to user better missing frame detection code. For this case";
   "  user must provide function declared in canmonitorutil.h - GetSysTick()";
   "  which may return 1ms uptime.";
   "";
   "  - calling function FMon_***  (from 'fmon' driver) inside unpack function";
   "  which is empty by default and have to be filled by user if";
   "  tests for DLC, rolling, checksum are necessary */";
   ""].
Definition cg4 (g : gendesc) : list string :=
  ["";
   "";
   "/* ------------------------------------------------------------------------- *";
   ("  When monitor using is enabled (" ++ n_usemon g ++ ") and define below");
   "  uncommented, additional signal will be added to message struct. ***_expt:";
   "  expected rolling counter, to perform monitoring rolling counter sequence";
   "  automatically (result may be tested in dedicated Fmon_*** function) */";
   ""].
Definition cg5 (g : gendesc) : list string :=
  ["";
   "";
   "/* ------------------------------------------------------------------------- *";
   ("  When monitor using is enabled (" ++ n_usemon g ++ ") and define below");
   "  uncommented, frame checksum signal may be handled automatically.";
   "";
   "  The signal which may be marked as checksum signal must have substring";
   "  with next format:";
   "    <Checksum:XOR8:3>";
   "";
   "  where:";
   "";
   "  - ""Checksum"": constant marker word";
   "";
   "  - ""XOR8"": type of method, this text will be passed to GetFrameHash";
   "  (canmonitorutil.h) function as is, the best use case is to define 'enum";
   "  DbcCanCrcMethods' in canmonitorutil.h file with all possible";
   "  checksum algorithms (e.g. XOR8, XOR4 etc)";
   "";
   "  - ""3"": optional value that will be passed to GetFrameHash as integer value";
   "";
   "  Function GetFrameHash have to be implemented by user";
   "";
   "  In pack function checksum signal will be calculated automatically";
   "  and loaded to payload";
   "";
   "  In unpack function checksum signal is checked with calculated.";
   "  (result may be tested in dedicated Fmon_*** function). */";
   ""].
Definition cg6 : list string :=
  ["";
   "";
   "/* ------------------------------------------------------------------------- *";
   "  FMon handling model can be build in two ways: ";
   "";
   "  1 - Default. In this case when specific frame unpack is called the ";
   "  specific FMon_{Frame name}_{driver name} functoin will be called.";
   "  User's code scope has to define each of these functions. Each function is";
   "  responsible for the error handling of one frame";
   "";
   "  2 - MONO. In this case there is only one function to perform any frame ";
   "  monitoring. This function has to be implemented in the user's code scope.";
   "  This function is named as FMon_MONO_{driver name}. It takes frame id";
   "  which can be used for selection of the logic for a frame monitoring.";
   "  This mode costs a bit more in runtime but when you often edit you DBC and you ";
   "  have more than one project it could be more maintanable (there is";
   "  no necessity to replace source code)";
   "";
   "  For using MONO way uncomment line below */"].

Definition sw (x : string) : string := "/* #define " ++ x ++ " */".
Definition cfg_lines (g : gendesc) : list string :=
  (lines (n_cominfo g) ++ lines (n_drvinfo g) ++ cg0 ++ [sw (n_usebits g)] ++ cg1 ++ [sw (n_usestruct g)] ++ cg2 ++ [sw (n_usesigfloat g)] ++ cg3 ++ [sw (n_usemon g)]
   ++ cg4 g ++ [sw (n_useroll g)] ++ cg5 g ++ [sw (n_usecsm g)] ++ cg6 ++ [sw (n_usemono g)])%list.

Record conf_ok (drv : string) (g : gendesc) : Prop := {
  co_eq : switches drv = [n_usebits g; n_usestruct g; n_usesigfloat g; n_usemon g; n_useroll g; n_usecsm g; n_usemono g];
  co_id : forall x, In x (switches drv) -> is_ident x = true /\ (String.length x <= 1000)%nat
}.
Lemma configure_conf : forall drv out com dinf hi low nc ni nf, is_ident drv = true -> (String.length drv <= 900)%nat ->
  conf_ok drv (st_g (configure drv out com dinf hi low nc ni nf)).
Proof.
  intros drv out com dinf hi low nc ni nf I LN. assert (LU : String.length (str_toupper drv) = String.length drv) by apply len_map. constructor.
  - unfold configure. cbn [st_g n_usebits n_usestruct n_usesigfloat n_usemon n_useroll n_usecsm n_usemono].
    rewrite !tmpb_short by (rewrite !app_len, ?LU; cbn [String.length]; lia). reflexivity.
  - intros x X. pose proof (upper_ident _ I) as U. apply in_map_iff in X as (y & <- & Y).
    assert (YC : all_chars is_idchar y = true /\ (String.length y <= 100)%nat) by (cbn [In] in Y; repeat (destruct Y as [<-|Y]; [split; [reflexivity|cbn [String.length]; lia]|]); contradiction).
    destruct YC as [Y1 Y2]. split; [now apply ident_prefix|]. rewrite app_len, LU. lia.
Qed.

Section Config.
Variables (drv : string) (g : gendesc) (ci di : string).
Hypothesis FO : files_ok g ci di.
Hypothesis CO : conf_ok drv g.

Lemma sw_in : forall x, In x (switches drv) <-> x = n_usebits g \/ x = n_usestruct g \/ x = n_usesigfloat g \/ x = n_usemon g \/ x = n_useroll g \/ x = n_usecsm g \/ x = n_usemono g.
Proof. intros x. rewrite (co_eq _ _ CO). cbn [In]. intuition. Qed.

Lemma config_full : Forall full (config_text g).
Proof.
  unfold config_text. constructor; [apply (so_cominfo _ _ (hd_src _ (fo_head _ _ _ FO)))|]. constructor; [apply (so_drvinfo _ _ (hd_src _ (fo_head _ _ _ FO)))|].
  unfold config_header_text. repeat (constructor; [first [apply L_full|apply nls_full]|]). constructor.
Qed.
Lemma sw_lines : forall x, In x (switches drv) -> lines (L ("/* #define " ++ x ++ " */")) = [sw x].
Proof. intros x I. destruct (co_id _ _ CO x I) as [A B]. pose proof (no_nl_ident' _ A) as N. apply lines_L. unfold sw. raw. Qed.
Lemma when_lines : lines (L ("  When monitor using is enabled (" ++ n_usemon g ++ ") and define below")) = ["  When monitor using is enabled (" ++ n_usemon g ++ ") and define below"].
Proof. destruct (fmon _ _ _ FO) as [A B]. pose proof (no_nl_ident' _ A) as N. apply lines_L. raw. Qed.
Lemma config_lines : lines (sconcat (config_text g)) = cfg_lines g.
Proof.
  rewrite lines_pieces by exact config_full. unfold config_text, config_header_text, plines. cbn [flat_map].
  rewrite !sw_lines by (apply sw_in; auto 10). rewrite when_lines. litlines. reflexivity.
Qed.


(** ** Switching *)

Lemma find_sw : forall x l, In x l -> find (fun y => String.eqb (sw x) ("/* #define " ++ y ++ " */")) l = Some x.
Proof.
  intros x l. induction l as [|y l IH]; intros I; [contradiction|]. cbn [find]. destruct (String.eqb_spec (sw x) ("/* #define " ++ y ++ " */")) as [E|N].
  - unfold sw in E. apply prefix_inj in E. apply app_tail_inj in E. now subst.
  - destruct I as [->|I]; [now contradiction N|]. now apply IH.
Qed.
Variable on : string -> bool.
Definition pick (x : string) : string := if on x then "#define " ++ x else sw x.
Lemma switch_sw : forall x, In x (switches drv) -> switch_line drv on (sw x) = pick x.
Proof. intros x I. unfold switch_line. rewrite find_sw by exact I. reflexivity. Qed.
Definition no_switch (l : string) : bool := negb (String.prefix "/* #define " l).
Lemma prefix_app : forall p r : string, String.prefix p (p ++ r) = true.
Proof. induction p as [|c p IH]; intros r; [destruct r; reflexivity|]. cbn [String.append String.prefix]. destruct (ascii_dec c c); [apply IH|congruence]. Qed.
Lemma switch_other : forall l, no_switch l = true -> switch_line drv on l = l.
Proof.
  intros l N. unfold switch_line. destruct (find _ _) as [x|] eqn:F; [|reflexivity]. apply find_some in F as [_ F]. apply String.eqb_eq in F. subst l.
  unfold no_switch in N. rewrite prefix_app in N. discriminate.
Qed.
Lemma switch_group : forall ls, forallb no_switch ls = true -> map (switch_line drv on) ls = ls.
Proof.
  induction ls as [|l ls IH]; intros F; [reflexivity|]. cbn [forallb] in F. apply andb_true_iff in F as [A B]. cbn [map]. rewrite switch_other, IH by auto. reflexivity.
Qed.
Lemma info_group : forall t, info_ok t -> forallb no_switch (lines t) = true.
Proof.
  intros t [_ F]. apply forallb_forall. intros l I. rewrite Forall_forall in F. destruct (F l I) as (r & -> & _). reflexivity.
Qed.
Definition cfg_switched : list string :=
  (lines (n_cominfo g) ++ lines (n_drvinfo g) ++ cg0 ++ [pick (n_usebits g)] ++ cg1 ++ [pick (n_usestruct g)] ++ cg2 ++ [pick (n_usesigfloat g)] ++ cg3 ++ [pick (n_usemon g)]
   ++ cg4 g ++ [pick (n_useroll g)] ++ cg5 g ++ [pick (n_usecsm g)] ++ cg6 ++ [pick (n_usemono g)])%list.
Lemma switched_lines : map (switch_line drv on) (cfg_lines g) = cfg_switched.
Proof.
  unfold cfg_lines, cfg_switched. rewrite !map_app. cbn [map].
  rewrite (switch_group (lines (n_cominfo g))) by apply info_group, (so_cominfo _ _ (hd_src _ (fo_head _ _ _ FO))).
  rewrite (switch_group (lines (n_drvinfo g))) by apply info_group, (so_drvinfo _ _ (hd_src _ (fo_head _ _ _ FO))).
  rewrite (switch_group cg0), (switch_group cg1), (switch_group cg2), (switch_group cg3), (switch_group (cg4 g)), (switch_group (cg5 g)), (switch_group cg6) by (vm_compute; reflexivity).
  rewrite !switch_sw by (apply sw_in; auto 10). reflexivity.
Qed.

(** ** The text again *)

Definition unlines (ls : list string) : string := sconcat (map (fun l => l ++ nl) ls).
Lemma sconcat_app : forall a b, sconcat (a ++ b) = sconcat a ++ sconcat b.
Proof. induction a as [|x a IH]; intros b; [reflexivity|]. cbn [List.app sconcat]. now rewrite IH, app_assoc. Qed.
Lemma unlines_app : forall a b, unlines (a ++ b) = unlines a ++ unlines b.
Proof. intros. unfold unlines. now rewrite map_app, sconcat_app. Qed.
Lemma unlines_aux : forall r racc, unlines (lines_aux racc (r ++ nl)) = rev_string racc ++ r ++ nl.
Proof.
  induction r as [|c r IH]; intros racc.
  - unfold nl at 1. cbn [String.append lines_aux]. change (Ascii.eqb NL NL) with true. cbn iota. unfold unlines. cbn [map sconcat lines_aux]. now rewrite app_nil_r.
  - cbn [String.append lines_aux]. destruct (Ascii.eqb_spec c NL) as [->|N].
    + unfold unlines in *. cbn [map sconcat]. rewrite IH. cbn. rewrite ?app_assoc. reflexivity.
    + rewrite IH, (LexLemmas.rev_cons), app_assoc. reflexivity.
Qed.
Lemma unlines_lines : forall t, full t -> unlines (lines t) = t.
Proof. intros t [->|[r ->]]; [reflexivity|]. unfold lines. rewrite unlines_aux. reflexivity. Qed.

Definition cfg_pieces : list string :=
  [n_cominfo g; n_drvinfo g; unlines cg0; pick (n_usebits g) ++ nl; unlines cg1; pick (n_usestruct g) ++ nl; unlines cg2; pick (n_usesigfloat g) ++ nl; unlines cg3; pick (n_usemon g) ++ nl;
   unlines (cg4 g); pick (n_useroll g) ++ nl; unlines (cg5 g); pick (n_usecsm g) ++ nl; unlines cg6; pick (n_usemono g) ++ nl].
Lemma switched_text : switched drv on (sconcat (config_text g)) = sconcat cfg_pieces.
Proof.
  unfold switched. rewrite config_lines, <- (map_map (switch_line drv on) (fun l => l ++ nl)), switched_lines.
  fold (unlines cfg_switched). unfold cfg_switched. rewrite !unlines_app.
  rewrite !unlines_lines by first [apply (so_cominfo _ _ (hd_src _ (fo_head _ _ _ FO)))|apply (so_drvinfo _ _ (hd_src _ (fo_head _ _ _ FO)))].
  unfold cfg_pieces. cbn [sconcat]. unfold unlines at 2 4 6 8 10 12 14. cbn [map sconcat]. rewrite ?app_nil_r. reflexivity.
Qed.

(** ** Comments removed *)

Lemma uemit_block : forall s, all_chars is_idchar s = true -> uemit InBlock s = ("", InBlock).
Proof.
  induction s as [|c s IH]; intros H; [reflexivity|]. cbn [all_chars] in H. apply andb_true_iff in H as [A B].
  assert (X : Ascii.eqb c "*" = false) by (revert c A; apply (ascii_excl is_idchar (fun c => Ascii.eqb c "*")); vm_compute; reflexivity).
  cbn [uemit ustep]. rewrite X, (IH B). reflexivity.
Qed.
Definition picked (x : string) : string := if on x then "#define " ++ x else " ".
Lemma pick_becomes : forall x, In x (switches drv) -> becomes (pick x ++ nl) (picked x ++ nl).
Proof.
  intros x I. destruct (co_id _ _ CO x I) as [A _]. apply ident_chars in A. split; [|right; eexists; reflexivity]. unfold pick, picked. destruct (on x).
  - apply uemit_quiet. rewrite !all_chars_app, (id_quiet x A). reflexivity.
  - unfold sw. rewrite !app_assoc, (uemit_app "/* #define "). change (uemit Code "/* #define ") with ("", InBlock). cbn [fst snd].
    rewrite (uemit_app x), (uemit_block x A). reflexivity.
Qed.
Definition bare (t : string) : string := fst (uemit Code t).
Lemma const_becomes : forall t, snd (uemit Code t) = Code -> full (bare t) -> becomes t (bare t).
Proof. intros t E F. split; [|exact F]. unfold bare. destruct (uemit Code t). cbn [fst snd] in *. now subst. Qed.
Lemma block_becomes : forall a x b u v, uemit Code a = (u, InBlock) -> uemit InBlock b = (v, Code) -> all_chars is_idchar x = true -> full (u ++ v) ->
  becomes (a ++ x ++ b) (u ++ v).
Proof. intros a x b u v A B X F. split; [|exact F]. rewrite uemit_app, A. cbn [fst snd]. rewrite uemit_app, (uemit_block x X). cbn [fst snd]. rewrite B. reflexivity. Qed.

Definition gap : string := nl ++ nl ++ " " ++ nl ++ nl.
Lemma gap_full : full gap.
Proof. right. now exists (nl ++ nl ++ " " ++ nl). Qed.
Lemma cg4_becomes : becomes (unlines (cg4 g)) gap.
Proof.
  destruct (fmon _ _ _ FO) as [A _]. apply ident_chars in A.
  replace (unlines (cg4 g)) with ((unlines (firstn 3 (cg4 g)) ++ "  When monitor using is enabled (") ++ n_usemon g ++ (") and define below" ++ nl ++ unlines (skipn 4 (cg4 g)))).
  - apply (block_becomes _ _ _ (nl ++ nl) (" " ++ nl ++ nl)); [vm_compute; reflexivity|vm_compute; reflexivity|exact A|apply gap_full].
  - unfold cg4, unlines. cbn [firstn skipn map sconcat]. rewrite !app_assoc, ?app_nil_r. reflexivity.
Qed.
Lemma cg5_becomes : becomes (unlines (cg5 g)) gap.
Proof.
  destruct (fmon _ _ _ FO) as [A _]. apply ident_chars in A.
  replace (unlines (cg5 g)) with ((unlines (firstn 3 (cg5 g)) ++ "  When monitor using is enabled (") ++ n_usemon g ++ (") and define below" ++ nl ++ unlines (skipn 4 (cg5 g)))).
  - apply (block_becomes _ _ _ (nl ++ nl) (" " ++ nl ++ nl)); [vm_compute; reflexivity|vm_compute; reflexivity|exact A|apply gap_full].
  - unfold cg5, unlines. cbn [firstn skipn map sconcat]. rewrite !app_assoc, ?app_nil_r. reflexivity.
Qed.

Definition top : string := unlines ["#pragma once"; ""; " "; "#include ""dbccodeconf.h"""; ""; ""; " "; ""].
Definition cfg_strip : list string :=
  [ci; di; top; picked (n_usebits g) ++ nl; gap; picked (n_usestruct g) ++ nl; gap; picked (n_usesigfloat g) ++ nl; gap; picked (n_usemon g) ++ nl;
   gap; picked (n_useroll g) ++ nl; gap; picked (n_usecsm g) ++ nl; nl ++ nl ++ " " ++ nl; picked (n_usemono g) ++ nl].
Lemma cfg_becomes : Forall2 becomes cfg_pieces cfg_strip.
Proof.
  pose proof (fun x I => pick_becomes x (proj2 (sw_in x) I)) as P.
  assert (T : full top) by (right; exists ("#pragma once" ++ nl ++ nl ++ " " ++ nl ++ "#include ""dbccodeconf.h""" ++ nl ++ nl ++ nl ++ " " ++ nl); reflexivity).
  unfold cfg_pieces, cfg_strip. constructor; [apply (fo_com _ _ _ FO)|]. constructor; [apply (fo_drv _ _ _ FO)|].
  constructor; [apply becomes_const; [vm_compute; reflexivity|exact T]|]. constructor; [apply P; auto 10|].
  constructor; [apply becomes_const; [vm_compute; reflexivity|apply gap_full]|]. constructor; [apply P; auto 10|].
  constructor; [apply becomes_const; [vm_compute; reflexivity|apply gap_full]|]. constructor; [apply P; auto 10|].
  constructor; [apply becomes_const; [vm_compute; reflexivity|apply gap_full]|]. constructor; [apply P; auto 10|].
  constructor; [apply cg4_becomes|]. constructor; [apply P; auto 10|].
  constructor; [apply cg5_becomes|]. constructor; [apply P; auto 10|].
  constructor; [apply becomes_const; [vm_compute; reflexivity|right; now exists (nl ++ nl ++ " ")]|]. constructor; [apply P; auto 10|constructor].
Qed.

Definition opt (x : string) (r : items) : items := if on x then IDef x r else ILine " " [] r.
Definition gaps (r : items) : items := clist [""; ""; " "; ""] r.
Definition cfg_items : items :=
  clist (lines ci ++ lines di)%list (ISkip "#pragma once" (clist [""; " "] (ISkip "#include ""dbccodeconf.h""" (clist [""; ""; " "; ""]
    (opt (n_usebits g) (gaps (opt (n_usestruct g) (gaps (opt (n_usesigfloat g) (gaps (opt (n_usemon g) (gaps (opt (n_useroll g) (gaps (opt (n_usecsm g)
      (clist [""; ""; " "] (opt (n_usemono g) INil))))))))))))))))).
Lemma flat_opt : forall x r, flat (opt x r) = picked x :: flat r.
Proof. intros. unfold opt, picked. destruct (on x); reflexivity. Qed.
Lemma picked_lines : forall x, In x (switches drv) -> lines (picked x ++ nl) = [picked x].
Proof.
  intros x I. destruct (co_id _ _ CO x I) as [A _]. pose proof (no_nl_ident' _ A) as N. unfold picked, nl. rewrite lines_line; [reflexivity|]. destruct (on x); [nonls|reflexivity].
Qed.
Lemma cfg_flat : plines cfg_strip = flat cfg_items.
Proof.
  unfold plines, cfg_strip. cbn [flat_map]. rewrite !picked_lines by (apply sw_in; auto 10).
  change (lines gap) with [""; ""; " "; ""]. change (lines (nl ++ nl ++ " " ++ nl)) with [""; ""; " "].
  change (lines top) with ["#pragma once"; ""; " "; "#include ""dbccodeconf.h"""; ""; ""; " "; ""].
  unfold cfg_items, gaps. repeat (rewrite ?flat_clist, ?flat_opt; cbn [flat List.app]). rewrite ?List.app_nil_r, <- ?List.app_assoc. reflexivity.
Qed.
Lemma iwf_opt : forall x r, In x (switches drv) -> iwf r -> iwf (opt x r).
Proof.
  intros x r I W. destruct (co_id _ _ CO x I) as [A _]. unfold opt. destruct (on x); cbn [iwf]; split; auto.
  destruct x as [|c x]; [discriminate|]. exists c, x. split; [reflexivity|]. apply ident_chars in A. cbn [all_chars] in A. now apply andb_true_iff in A.
Qed.
Lemma cfg_wf : iwf cfg_items.
Proof.
  destruct (blank_plain ci (proj2 (fo_com _ _ _ FO))) as [B1 _]. destruct (blank_plain di (proj2 (fo_drv _ _ _ FO))) as [B2 _].
  unfold cfg_items, gaps. apply iwf_clist; [now apply Forall_app|]. cbn [iwf]. split; [eexists _, _; split; reflexivity|]. apply iwf_clist; [repeat constructor|]. cbn [iwf].
  split; [eexists _, _; split; reflexivity|].
  repeat (apply iwf_clist; [repeat constructor|]; apply iwf_opt; [apply sw_in; auto 10|]). exact Logic.I.
Qed.

Definition add_switch (M : mtable) (x : string) : mtable := if on x then (x, flag) :: M else M.
Lemma macs_opt : forall M x r, In x (switches drv) -> macs M (opt x r) = macs (add_switch M x) r.
Proof.
  intros M x r I. destruct (co_id _ _ CO x I) as [A _]. apply ident_chars in A. unfold opt, add_switch. destruct (on x); [|now rewrite macs_line].
  rewrite macs_def. assert (P : pp_define x = (x, flag)); [|now rewrite P]. unfold pp_define. rewrite <- (app_nil_r x) at 1. rewrite span_ident; auto.
Qed.
Lemma toks_opt : forall M x r, In x (switches drv) -> toks M (opt x r) = toks (add_switch M x) r.
Proof.
  intros M x r I. destruct (co_id _ _ CO x I) as [A _]. apply ident_chars in A. unfold opt, add_switch. destruct (on x); [|now rewrite toks_line].
  rewrite toks_def. assert (P : pp_define x = (x, flag)); [|now rewrite P]. unfold pp_define. rewrite <- (app_nil_r x) at 1. rewrite span_ident; auto.
Qed.
Lemma cfg_macs : forall M, macs M cfg_items = fold_left add_switch (switches drv) M /\ toks M cfg_items = [].
Proof.
  intros M. destruct (blank_plain ci (proj2 (fo_com _ _ _ FO))) as [_ B1]. destruct (blank_plain di (proj2 (fo_drv _ _ _ FO))) as [_ B2].
  unfold cfg_items, gaps. split.
  - rewrite macs_clist, macs_skip, macs_clist, macs_skip. repeat (rewrite macs_clist, macs_opt by (apply sw_in; auto 10)). rewrite (co_eq _ _ CO). reflexivity.
  - rewrite toks_clist, map_app, concat_app, B1, B2, toks_skip, toks_clist, toks_skip. repeat (rewrite toks_clist, toks_opt by (apply sw_in; auto 10)). reflexivity.
Qed.
Lemma lookup_switch : forall l M x, lookup x (fold_left add_switch l M) = if existsb (String.eqb x) l && on x then Some flag else lookup x M.
Proof.
  induction l as [|y l IH]; intros M x; [reflexivity|]. cbn [fold_left existsb]. rewrite IH. unfold add_switch. destruct (String.eqb_spec x y) as [->|N].
  - cbn [orb andb]. destruct (on y) eqn:E; [|rewrite !andb_false_r; reflexivity]. rewrite andb_true_r. cbn [lookup]. rewrite String.eqb_refl. now destruct (existsb _ l).
  - cbn [orb]. destruct (existsb _ l && on x); [reflexivity|]. destruct (on y); [|reflexivity]. cbn [lookup]. destruct (String.eqb_spec x y); [contradiction|reflexivity].
Qed.
Lemma config_switched : forall M,
  (forall x, lookup x (macros_after M (switched drv on (sconcat (config_text g)))) = if existsb (String.eqb x) (switches drv) && on x then Some flag else lookup x M) /\
  toks_of M (switched drv on (sconcat (config_text g))) = [] /\ In "dbccodeconf.h" (included (uncomment (switched drv on (sconcat (config_text g))))).
Proof.
  intros M. pose proof cfg_becomes as BC. apply uncomment_pieces in BC. rewrite <- switched_text, cfg_flat in BC.
  destruct (pp_run_items M _ cfg_wf) as [R1 R2]. destruct (cfg_macs M) as [C1 C2].
  unfold macros_after, toks_of, source_toks. rewrite BC, R1, R2. split; [|split; [exact C2|]].
  - intros x. fold (macs M cfg_items). rewrite C1. apply lookup_switch.
  - apply included_line; [|reflexivity]. rewrite BC. unfold cfg_items. rewrite flat_clist. cbn [flat]. rewrite in_app_iff. right. right. rewrite flat_clist. cbn [List.app flat In]. auto.
Qed.
End Config.

(** ** Common types and the frame monitor *)

Definition conf_rest : list string := Eval vm_compute in match dbccodeconf_text (st_g (configure "" "" "" "" 0 0 true true true)) with _ :: l => l | [] => [] end.
Definition util_rest : list string := Eval vm_compute in match canmonutil_text (st_g (configure "" "" "" "" 0 0 true true true)) with _ :: l => l | [] => [] end.
Lemma dbcconf_pieces : forall g, dbccodeconf_text g = n_cominfo g :: conf_rest.
Proof. intros. vm_compute. reflexivity. Qed.
Lemma monutil_pieces : forall g, canmonutil_text g = n_cominfo g :: util_rest.
Proof. intros. vm_compute. reflexivity. Qed.
Definition conf_bare : list string := Eval vm_compute in map (fun t => fst (uemit Code t)) conf_rest.
Definition util_bare : list string := Eval vm_compute in map (fun t => fst (uemit Code t)) util_rest.

Lemma full_last : forall t, match last_char t with None => true | Some c => Ascii.eqb c NL end = true -> full t.
Proof.
  intros t E. destruct t as [|c t]; [now left|]. pose proof (append_s_full (String c t)) as F. unfold append_s in F. destruct (last_char (String c t)) as [x|] eqn:LC; [now rewrite E in F|].
  exfalso. clear - LC. revert c LC. induction t as [|d t IH]; intros c LC; [discriminate|]. cbn [last_char] in *. now apply (IH d).
Qed.
Lemma conf_becomes : Forall2 becomes conf_rest conf_bare.
Proof. unfold conf_rest, conf_bare. repeat (constructor; [apply becomes_const; [vm_compute; reflexivity|apply full_last; vm_compute; reflexivity]|]); constructor. Qed.
Lemma util_becomes : Forall2 becomes util_rest util_bare.
Proof. unfold util_rest, util_bare. repeat (constructor; [apply becomes_const; [vm_compute; reflexivity|apply full_last; vm_compute; reflexivity]|]); constructor. Qed.

Definition conf_items (pre : list string) : items :=
  clist pre (ISkip "#pragma once" (clist [""] (ISkip "#include <stdint.h>" (clist (skipn 3 (plines conf_bare)) INil)))).
Definition util_items (pre : list string) : items :=
  clist pre (ISkip "#pragma once" (clist [""] (ISkip "#include <stdint.h>" (clist [""] (ICond false "__cplusplus" (clist ["extern ""C"" {"] INil) false INil ""
    (clist (firstn 42 (skipn 7 (plines util_bare))) (ICond false "__cplusplus" (clist ["}"] INil) false INil "" (clist [""] INil)))))))).

Lemma info_blank : forall g ci di, files_ok g ci di -> becomes (n_cominfo g) ci /\ Forall (fun s => directive s = None) (lines ci) /\ List.concat (map lex (lines ci)) = [].
Proof. intros g ci di FO. destruct (fo_com _ _ _ FO) as [A B]. destruct (blank_plain ci B). auto. Qed.

Lemma dbcconf_unit : forall g ci di M, files_ok g ci di -> let t := sconcat (dbccodeconf_text g) in
  macros_after M t = M /\ toks_of M t = lex "typedef uint32_t ubitext_t; typedef int32_t bitext_t;".
Proof.
  intros g ci di M FO t. destruct (info_blank g ci di FO) as (B1 & B2 & B3).
  assert (BC : Forall2 becomes (dbccodeconf_text g) (ci :: conf_bare)) by (rewrite dbcconf_pieces; constructor; [exact B1|exact conf_becomes]).
  apply uncomment_pieces in BC. fold t in BC.
  assert (E : plines (ci :: conf_bare) = flat (conf_items (lines ci))).
  { unfold conf_items. repeat (rewrite flat_clist; cbn [flat]). unfold plines at 1. cbn [flat_map]. f_equal. }
  rewrite E in BC. assert (W : iwf (conf_items (lines ci))).
  { unfold conf_items. apply iwf_clist; [exact B2|]. cbn [iwf]. split; [eexists _, _; split; reflexivity|]. apply iwf_clist; [repeat constructor|]. cbn [iwf].
    split; [eexists _, _; split; reflexivity|]. apply iwf_clist; [|exact Logic.I]. repeat constructor. }
  destruct (pp_run_items M _ W) as [R1 R2]. unfold macros_after, toks_of, source_toks. rewrite BC, R1, R2.
  fold (macs M (conf_items (lines ci))). fold (toks M (conf_items (lines ci))). unfold conf_items. split.
  - rewrite macs_clist, macs_skip, macs_clist, macs_skip, macs_clist. reflexivity.
  - rewrite toks_clist, B3, toks_skip, toks_clist, toks_skip, toks_clist. vm_compute. reflexivity.
Qed.

Lemma monutil_unit : forall g ci di M, files_ok g ci di -> let t := sconcat (canmonutil_text g) in
  macros_after M t = M /\ declares (toks_of M t) "FrameMonitor_t" monitor_members.
Proof.
  intros g ci di M FO t. destruct (info_blank g ci di FO) as (B1 & B2 & B3).
  assert (BC : Forall2 becomes (canmonutil_text g) (ci :: util_bare)) by (rewrite monutil_pieces; constructor; [exact B1|exact util_becomes]).
  apply uncomment_pieces in BC. fold t in BC.
  assert (E : plines (ci :: util_bare) = flat (util_items (lines ci))).
  { unfold util_items. repeat (rewrite flat_clist; cbn [flat]). unfold plines at 1. cbn [flat_map]. f_equal. }
  rewrite E in BC. assert (W : iwf (util_items (lines ci))).
  { unfold util_items. apply iwf_clist; [exact B2|]. cbn [iwf]. split; [eexists _, _; split; reflexivity|]. apply iwf_clist; [repeat constructor|]. cbn [iwf].
    split; [eexists _, _; split; reflexivity|]. apply iwf_clist; [repeat constructor|]. cbn [iwf]. split; [reflexivity|]. split; [apply iwf_clist; [repeat constructor|exact Logic.I]|].
    split; [exact Logic.I|]. split; [reflexivity|]. split; [now left|]. apply iwf_clist; [repeat constructor|]. cbn [iwf]. split; [reflexivity|].
    split; [apply iwf_clist; [repeat constructor|exact Logic.I]|]. split; [exact Logic.I|]. split; [reflexivity|]. split; [now left|]. apply iwf_clist; [repeat constructor|exact Logic.I]. }
  destruct (pp_run_items M _ W) as [R1 R2]. unfold macros_after, toks_of, source_toks. rewrite BC, R1, R2.
  fold (macs M (util_items (lines ci))). fold (toks M (util_items (lines ci))). unfold util_items. split.
  - rewrite macs_clist, macs_skip, macs_clist, macs_skip, macs_clist, macs_cond, cplusplus_macs, macs_clist, macs_cond, cplusplus_macs, macs_clist. reflexivity.
  - rewrite toks_clist, B3, toks_skip, toks_clist, toks_skip, toks_clist, toks_cond, cplusplus_macs, toks_clist. cbn [List.app map List.concat].
    set (A := toks M (if xorb false (defined "__cplusplus" M) then _ else _)). set (B := toks M (ICond _ _ _ _ _ _ _)).
    exists (A ++ lex "typedef enum { CRC_ALG_COUNT } DbcCanCrcMethods;")%list, B,
      (lex "uint32_t last_cycle; uint32_t timeout_cycle; uint32_t frame_cnt; uint32_t roll_error : 1; uint32_t csm_error : 1; uint32_t cycle_error : 1; uint32_t dlc_error : 1;").
    split; [|vm_compute; reflexivity]. clearbody A B. change (lex "") with (@nil tok). cbn [List.app]. rewrite <- !List.app_assoc. f_equal.

Qed.

Lemma monitor_layout : forall m, monitor_object m monitor_members -> has_monitor m.
Proof.
  intros m MO. constructor.
  - apply (MO (u32_member "frame_cnt")); [cbn [In monitor_members]; tauto|reflexivity].
  - apply (MO (u32_member "last_cycle")); [cbn [In monitor_members]; tauto|reflexivity].
  - apply (MO (u32_flag "roll_error")); [cbn [In monitor_members]; tauto|reflexivity].
  - apply (MO (u32_flag "csm_error")); [cbn [In monitor_members]; tauto|reflexivity].
  - apply (MO (u32_flag "dlc_error")); [cbn [In monitor_members]; tauto|reflexivity].
Qed.

(** ** By path *)

Theorem config_file : forall drv d s fs t, emitted drv d s fs -> In (f_confdir (st_f s) ++ "/" ++ str_tolower drv ++ "-config.h", t) fs -> forall on M,
  (forall x, lookup x (macros_after M (switched drv on t)) = if existsb (String.eqb x) (switches drv) && on x then Some flag else lookup x M) /\
  toks_of M (switched drv on t) = [] /\ In "dbccodeconf.h" (included (uncomment (switched drv on t))).
Proof.
  intros drv d s fs t EM IT on M. destruct (emitted_facts drv d s fs EM) as [xs RF]. destruct (rf_ok _ _ _ _ _ RF) as (ci & di & FO).
  apply (rf_conf _ _ _ _ _ RF) in IT as [_ ->]. destruct EM as [RUN [DI DL] _]. destruct RUN as (srt & out & date & dbc & hi & low & nc & ni & nf & _ & _ & _ & _ & _ & G & _).
  apply (config_switched drv (st_g s) ci di FO). rewrite G. now apply configure_conf.
Qed.
Theorem config_default : forall drv d s fs t, emitted drv d s fs -> In (f_confdir (st_f s) ++ "/" ++ str_tolower drv ++ "-config.h", t) fs -> switched drv (fun _ => false) t = t.
Proof.
  intros drv d s fs t EM IT. destruct (emitted_facts drv d s fs EM) as [xs RF]. destruct (rf_ok _ _ _ _ _ RF) as (ci & di & FO).
  apply (rf_conf _ _ _ _ _ RF) in IT as [_ ->]. unfold switched.
  rewrite (map_ext _ (fun l => l ++ nl)).
  - apply (unlines_lines (sconcat (config_text (st_g s)))). pose proof (config_full (st_g s) ci di FO) as F. clear - F.
    induction F as [|p ps F1 F IH]; [now left|]. cbn [sconcat]. destruct IH as [->|[r ->]]; [now rewrite app_nil_r|right]. exists (p ++ r). now rewrite app_assoc.
  - intros l. f_equal. unfold switch_line. now destruct (find _ _).
Qed.
Theorem dbcconf_file : forall drv d s fs t, emitted drv d s fs -> In (f_confdir (st_f s) ++ "/dbccodeconf.h", t) fs -> forall M,
  macros_after M t = M /\ toks_of M t = lex "typedef uint32_t ubitext_t; typedef int32_t bitext_t;".
Proof.
  intros drv d s fs t EM IT M. destruct (emitted_facts drv d s fs EM) as [xs RF]. destruct (rf_ok _ _ _ _ _ RF) as (ci & di & FO).
  apply (rf_dbcconf _ _ _ _ _ RF) in IT as [_ ->]. eapply dbcconf_unit; eauto.
Qed.
Theorem monutil_file : forall drv d s fs t, emitted drv d s fs -> In (f_incdir (st_f s) ++ "/canmonitorutil.h", t) fs -> forall M,
  macros_after M t = M /\ declares (toks_of M t) "FrameMonitor_t" monitor_members.
Proof.
  intros drv d s fs t EM IT M. destruct (emitted_facts drv d s fs EM) as [xs RF]. destruct (rf_ok _ _ _ _ _ RF) as (ci & di & FO).
  apply (rf_monutil _ _ _ _ _ RF) in IT as [_ ->]. eapply monutil_unit; eauto.
Qed.
