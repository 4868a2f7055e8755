(** The utility source as a translation unit: the function Receive and what it does. *)

From Coq Require Import ZArith NArith List String Ascii Bool Lia ZifyBool Permutation Sorted.
From Verif Require Import Base Dbl CSyntax CSem CRun Types Formatter SigPrinter Writer Settings MainGen UtilGen App CodecSpec MsgSpec
  LexLemmas PPProof BodyLemmas UnpackBody UnpackFun SourceFun DriverSpec DriverProof HeaderSpec HeaderProof HeaderRun CodecEnv StructSpec StructProof UtilSpec UtilTree.
Import ListNotations.
Open Scope string_scope.

(** ** Lines *)

Lemma line_skip : forall M k out s, skip_dir s -> pp_line (mkst M k out) s = mkst M k out.
Proof.
  intros M k out s (d & r & D & N). unfold pp_line. rewrite D.
  unfold smem in N. cbn [existsb] in N. apply orb_false_iff in N. destruct N as [N1 N]. apply orb_false_iff in N. destruct N as [N2 N].
  apply orb_false_iff in N. destruct N as [N3 N]. apply orb_false_iff in N. destruct N as [N4 N]. apply orb_false_iff in N. destruct N as [N5 N].
  apply orb_false_iff in N. destruct N as [N6 _]. rewrite N1, N2, N3, N4, N5, N6. reflexivity.
Qed.
Lemma yields_skip : forall M s, skip_dir s -> yields M [s] [].
Proof.
  intros M s S. split.
  - intros [M0 k out] O. rewrite runs_one. fold (mkst M0 k out). now rewrite line_skip.
  - intros k out K. exists out. rewrite runs_one, line_skip by exact S. now rewrite List.app_nil_r.
Qed.
Lemma yp_skip : forall M s, raw_ok s -> skip_dir s -> ypart M [L s] [].
Proof. intros M s R S. exists [s]. split; [now apply part_raw|now apply yields_skip]. Qed.
Lemma yields_never : forall M s a e, quiet a -> dword e = Some "endif" -> yields M (("#if " ++ s)%string :: a ++ [e]) [].
Proof.
  intros M s a e Q E.
  assert (RUN : forall st, runs st (("#if " ++ s)%string :: a ++ [e])%list = st).
  { intros [M0 k out]. fold (mkst M0 k out).
    change (runs (mkst M0 k out) (("#if " ++ s)%string :: a ++ [e])%list) with (runs (pp_line (mkst M0 k out) ("#if " ++ s)) (a ++ [e])).
    assert (X : pp_line (mkst M0 k out) ("#if " ++ s) = mkst M0 (false :: k) out).
    { unfold pp_line. change ("#if " ++ s) with ("#" ++ "if" ++ " " ++ s). rewrite directive_word by (reflexivity || discriminate). reflexivity. }
    rewrite X, runs_app, runs_one, Q by reflexivity. now apply line_endif. }
  split; [intros st _; apply RUN|]. intros k out K. exists out. rewrite RUN. now rewrite List.app_nil_r.
Qed.
Lemma yp_never : forall M s a ta e, ypart M a ta -> raw_ok ("#if " ++ s) -> raw_ok e -> dword e = Some "endif" ->
  ypart M (L ("#if " ++ s) :: a ++ [L e]) [].
Proof.
  intros M s a ta e (la & A & Y) R1 R2 E. exists (("#if " ++ s)%string :: la ++ [e])%list. split; [|apply yields_never; [apply Y|exact E]].
  apply (part_app [L ("#if " ++ s)] [("#if " ++ s)%string] (a ++ [L e]) (la ++ [e])); [now apply part_raw|].
  apply part_app; [auto|now apply part_raw].
Qed.
Lemma yp_info : forall M s, info_ok s -> ypart M [s] [].
Proof.
  intros M s [F C]. exists (lines s). split; [now apply part_full|]. apply yields_silent.
  pose proof (comments_plain _ C) as P. rewrite Forall_forall in *. intros l I. split; [now apply P|]. apply lex_comment. now apply C.
Qed.

Lemma directive_ident_line : forall d r, is_ident d = true -> directive (d ++ r) = None.
Proof.
  intros [|c d] r I; [discriminate|]. cbn [String.append]. apply dir_cons. intros ->. discriminate.
Qed.

(** ** Generated names *)

Record ugen_ok (g : gendesc) (drv : string) (who : option string) : Prop := {
  ug_drv : n_drv g = util_name drv who;
  ug_DRV : is_ident (n_DRV g) = true /\ (String.length (n_DRV g) <= 2000)%nat;
  ug_com : info_ok (n_cominfo g);
  ug_info : info_ok (n_drvinfo g);
  ug_ver : no_nl (n_verhi g) = true /\ no_nl (n_verlow g) = true /\ (String.length (n_verhi g) <= 1100)%nat /\ (String.length (n_verlow g) <= 1100)%nat
}.

Lemma util_gen : forall drv who out date dbc hi low nc ni nf,
  is_ident drv = true -> (String.length drv <= 900)%nat -> is_ident (util_name drv who) = true -> (String.length (util_name drv who) <= 2000)%nat ->
  match date with Some t => no_nl t = true | None => True end -> no_nl dbc = true ->
  (0 <= hi < 2 ^ 32)%Z -> (0 <= low < 2 ^ 32)%Z ->
  ugen_ok (st_g (util_settings drv who (configure drv out (common_info date) (driver_info dbc) hi low nc ni nf))) drv who.
Proof.
  intros drv who out date dbc hi low nc ni nf I LN IU LU D B H1 H2.
  pose proof (configure_ok drv out date dbc hi low nc ni nf I LN D B H1 H2) as SO. cbv zeta in SO.
  assert (LD : String.length (str_toupper drv) = String.length drv) by apply len_map.
  destruct (so_len _ _ SO) as (_ & _ & S3 & S4 & _). destruct (so_ver _ _ SO) as [V1 V2].
  destruct who as [n|]; cbn [util_settings util_name] in *.
  - constructor; try (cbn [node_settings st_g n_cominfo n_drvinfo n_verhi n_verlow n_drv n_DRV]).
    + reflexivity.
    + assert (LX : String.length (str_toupper (str_tolower (n ++ "_" ++ drv))) = String.length (str_tolower (n ++ "_" ++ drv))) by apply len_map.
      rewrite LX. split; [now apply upper_ident|exact LU].
    + exact (so_cominfo _ _ SO).
    + exact (so_drvinfo _ _ SO).
    + auto.
  - constructor.
    + reflexivity.
    + cbn [configure st_g n_DRV]. rewrite LD. split; [now apply upper_ident|lia].
    + exact (so_cominfo _ _ SO).
    + exact (so_drvinfo _ _ SO).
    + auto.
Qed.

(** ** The source *)

Definition rx_type (d : string) : string := d ++ "_rx_t".
Definition tx_type (d : string) : string := d ++ "_tx_t".
Definition receive_head (d : string) : string :=
  "uint32_t " ++ d ++ "_Receive(" ++ d ++ "_rx_t* _m, const uint8_t* _d, uint32_t _id, uint8_t dlc_)".
Definition receive_toks (d : string) : list tok :=
  [TId "uint32_t"; TId (d ++ "_Receive"); TP PLpar; TId (rx_type d); TP (PBin OMul); TId "_m"; TP PComma; TId "const"; TId "uint8_t"; TP (PBin OMul);
   TId "_d"; TP PComma; TId "uint32_t"; TId "_id"; TP PComma; TId "uint8_t"; TId "dlc_"; TP PRpar].
Lemma receive_lex : forall d, is_ident d = true -> lex (receive_head d) = receive_toks d.
Proof.
  intros d I. assert (I1 : is_ident (d ++ "_Receive") = true) by (apply ident_prefix; auto). assert (I2 : is_ident (d ++ "_rx_t") = true) by (apply ident_prefix; auto).
  replace (receive_head d) with ("uint32_t " ++ ((d ++ "_Receive") ++ ("(" ++ ((d ++ "_rx_t") ++ ("* _m, const uint8_t* _d, uint32_t _id, uint8_t dlc_)" ++ ""))))).
  2: { unfold receive_head. rewrite !app_assoc. reflexivity. }
  unfold lex. lexrun ltac:(rewrite lex_ident' by auto). reflexivity.
Qed.

Definition s_recid : stmt := SDecl "uint32_t" "recid" (Some (EInt I32 0)).
Definition s_ret : stmt := SReturn (EId "recid").

Lemma write_full : forall t i, exists x, write_code i t = x ++ nl.
Proof.
  intros t i.
  assert (P : forall a s, exists x, a ++ print_code i s = x ++ nl) by (intros a s; unfold print_code; eexists; rewrite <- !app_assoc; reflexivity).
  destruct t as [c [h|] [l|]|c b|b]; cbn [write_code]; rewrite <- ?app_assoc; try apply P.
  - exact (P "" _).
  - exact (P "" _).
Qed.
Lemma append_write : forall t i, append_s (write_code i t) = write_code i t.
Proof.
  intros t i. destruct (write_full t i) as [x ->]. unfold append_s. rewrite last_char_ends by discriminate. reflexivity.
Qed.

Lemma receive_body : forall ts st, parses ts st -> srun ([KBlock []], MStmt) (lex " uint32_t recid = 0;" ++ ts ++ lex " return recid;") = Some ([KBlock [s_ret; st; s_recid]], MStmt).
Proof.
  intros ts st P. change (lex " uint32_t recid = 0;") with [TId "uint32_t"; TId "recid"; TP (PBin OAsg); TInt I32 0; TP PSemi].
  change (lex " return recid;") with [TId "return"; TId "recid"; TP PSemi]. cbn [List.app].
  change (srun ([KBlock []], MStmt) (TId "uint32_t" :: TId "recid" :: TP (PBin OAsg) :: TInt I32 0 :: TP PSemi :: ts ++ [TId "return"; TId "recid"; TP PSemi]))
    with (srun ([KBlock [s_recid]], MStmt) (ts ++ TId "return" :: [TId "recid"; TP PSemi])).
  rewrite P by discriminate. reflexivity.
Qed.

(** declarations of the global structs *)
Definition glob (d k : string) : list tok := [TId (d ++ "_" ++ k ++ "_t"); TId (d ++ "_" ++ k); TP PSemi].
Lemma glob_lex : forall d k, is_ident d = true -> all_chars is_idchar k = true -> lex (d ++ "_" ++ k ++ "_t " ++ d ++ "_" ++ k ++ ";") = glob d k.
Proof.
  intros d k I K. assert (I1 : is_ident (d ++ "_" ++ k) = true) by (apply ident_prefix; [exact I|cbn; exact K]).
  assert (I2 : is_ident (d ++ "_" ++ k ++ "_t") = true) by (apply ident_prefix; [exact I|]; rewrite !all_chars_app, K; reflexivity).
  replace (d ++ "_" ++ k ++ "_t " ++ d ++ "_" ++ k ++ ";") with ((d ++ "_" ++ k ++ "_t") ++ (" " ++ ((d ++ "_" ++ k) ++ (";" ++ "")))) by (rewrite !app_assoc; reflexivity).
  unfold lex. lexrun ltac:(rewrite lex_ident' by auto). reflexivity.
Qed.

Definition source_head (g : gendesc) (utilh : string) (hi low : Z) : list string :=
  [n_cominfo g; n_drvinfo g; L ("#include " ++ dq ++ utilh ++ dq); nls 1;
    L "// DBC file version";
    L ("#if (" ++ n_verhi g ++ " != (" ++ pu hi ++ "U)) || (" ++ n_verlow g ++ " != (" ++ pu low ++ "U))");
    L ("#error The " ++ n_DRV g ++ " binutil source file has inconsistency with core dbc lib!");
    L "#endif"; nls 1].
Definition source_globs (g : gendesc) (rx tx : list message) : list string :=
  let d := n_drv g in
  (if nonempty rx || nonempty tx then
           [L ("#ifdef __DEF_" ++ n_DRV g ++ "__"); nls 1]
             ++ (if nonempty rx then [L (d ++ "_rx_t " ++ d ++ "_rx;"); nls 1] else [])
             ++ (if nonempty tx then [L (d ++ "_tx_t " ++ d ++ "_tx;"); nls 1] else [])
             ++ [L ("#endif // __DEF_" ++ n_DRV g ++ "__"); nls 1]
         else [])%list.

Section Source.
Variable (M : list (string * macro)) (g : gendesc) (drv : string) (who : option string).
Hypothesis G : ugen_ok g drv who.
Hypothesis IU : is_ident (util_name drv who) = true.
Hypothesis LU : (String.length (util_name drv who) <= 2000)%nat.

Lemma head_yp : forall utilh hi low, no_nl utilh = true -> (String.length utilh <= 3000)%nat -> (0 <= hi < 2 ^ 32)%Z -> (0 <= low < 2 ^ 32)%Z ->
  ypart M (source_head g utilh hi low) [].
Proof.
  intros utilh hi low NU LH H1 H2. destruct G as [GD [GI GL] GC GF (V1 & V2 & V3 & V4)]. unfold source_head.
  pose proof (pu_len hi ltac:(lia)) as P1. pose proof (pu_len low ltac:(lia)) as P2. pose proof (no_nl_ident' _ GI) as NG.
  apply (yp_cons M _ _ [] []); [now apply yp_info|]. apply (yp_cons M _ _ [] []); [now apply yp_info|].
  apply (yp_cons M _ _ [] []). { apply yp_skip; [|apply skip_include]. apply raw_intro; [rewrite !no_nl_app, NU; reflexivity|rewrite !app_len; change (String.length dq) with 1%nat; cbn [String.length]; lia]. }
  apply (yp_cons M _ _ [] []); [apply yp_nls|].
  apply (yp_cons M _ _ [] []). { apply (yp_line M "// DBC file version"); [apply raw_intro; [reflexivity|cbn; lia]|reflexivity]. }
  apply (yp_app M [_; _; _] [nls 1] [] []); [|apply yp_nls].
  apply (yp_never M ("(" ++ n_verhi g ++ " != (" ++ pu hi ++ "U)) || (" ++ n_verlow g ++ " != (" ++ pu low ++ "U))") [_] [] "#endif").
  - apply yp_skip; [|apply (skip_error ("The " ++ n_DRV g ++ " binutil source file has inconsistency with core dbc lib!"))].
    apply raw_intro; [rewrite !no_nl_app, NG; reflexivity|rewrite !app_len; cbn [String.length]; lia].
  - apply raw_intro; [rewrite !no_nl_app, V1, V2, !pu_nonl; reflexivity|rewrite !app_len; cbn [String.length]; lia].
  - apply raw_intro; [reflexivity|cbn; lia].
  - reflexivity.
Qed.

Lemma globs_yp : forall rx tx, exists ts, ypart M (source_globs g rx tx) ts /\ forall o, fold_left fstep ts (fs0 o) = fs0 o.
Proof.
  intros rx tx. destruct G as [GD [GI GL] GC GF _]. unfold source_globs. rewrite GD. set (d := util_name drv who) in *.
  pose proof (no_nl_ident' _ GI) as NG. pose proof (no_nl_ident' _ IU) as ND. pose proof LU as LD. fold d in ND, LD.
  destruct (nonempty rx || nonempty tx); [|exists []; split; [apply yp_nil|reflexivity]].
  set (tr := if nonempty rx then glob d "rx" else []). set (tt := if nonempty tx then glob d "tx" else []).
  assert (Y : ypart M ((nls 1 :: (if nonempty rx then [L (d ++ "_rx_t " ++ d ++ "_rx;"); nls 1] else [])
             ++ (if nonempty tx then [L (d ++ "_tx_t " ++ d ++ "_tx;"); nls 1] else [])))%list (tr ++ tt)).
  { assert (GL1 : forall k, all_chars is_idchar k = true -> (String.length k <= 10)%nat -> ypart M [L (d ++ "_" ++ k ++ "_t " ++ d ++ "_" ++ k ++ ";"); nls 1] (glob d k)).
    { intros k K LK. rewrite <- (List.app_nil_r (glob d k)). apply yp_cons; [|apply yp_nls]. rewrite <- glob_lex by auto. apply yp_line.
      - apply raw_intro; [rewrite !no_nl_app, ND, (no_nl_ident _ K); reflexivity|rewrite !app_len; cbn [String.length]; lia].
      - apply directive_ident_line. exact IU. }
    apply (yp_cons M _ _ [] (tr ++ tt)); [apply yp_nls|]. apply yp_app; subst tr tt.
    - destruct (nonempty rx); [apply (GL1 "rx"); [reflexivity|cbn; lia]|apply yp_nil].
    - destruct (nonempty tx); [apply (GL1 "tx"); [reflexivity|cbn; lia]|apply yp_nil]. }
  assert (ID : is_ident ("__DEF_" ++ n_DRV g ++ "__") = true).
  { apply (ident_prefix "__DEF_"); [reflexivity|]. rewrite all_chars_app, (ident_chars _ GI). reflexivity. }
  exists (if defined ("__DEF_" ++ n_DRV g ++ "__") M then (tr ++ tt)%list else []). split.
  - assert (YI : ypart M (L ("#ifdef " ++ ("__DEF_" ++ n_DRV g ++ "__")) :: (nls 1 :: (if nonempty rx then [L (d ++ "_rx_t " ++ d ++ "_rx;"); nls 1] else [])
             ++ (if nonempty tx then [L (d ++ "_tx_t " ++ d ++ "_tx;"); nls 1] else [])) ++ [L ("#endif // __DEF_" ++ n_DRV g ++ "__")])%list
             (if defined ("__DEF_" ++ n_DRV g ++ "__") M then (tr ++ tt)%list else [])).
    { apply yp_if; [exact ID| | |reflexivity|exact Y]; (apply raw_intro; [rewrite !no_nl_app, NG; reflexivity|rewrite !app_len; cbn [String.length]; lia]). }
    rewrite <- (List.app_nil_r (if defined _ M then (tr ++ tt)%list else [])).
    match type of YI with ypart _ ?a ?t => pose proof (yp_app M a [nls 1] t [] YI (yp_nls M 1)) as YZ end.
    cbn [List.app] in *. rewrite <- !List.app_assoc in YZ. cbn [List.app] in YZ. exact YZ.
  - intros o. destruct (defined _ M); [|reflexivity]. subst tr tt. destruct (nonempty rx), (nonempty tx); reflexivity.
Qed.

Variable (l : list message).
Hypothesis Oks : forall m, In m l -> umsg_ok m.
Hypothesis NE : l <> [].
Hypothesis Dlen : (String.length drv <= 900)%nat.
Hypothesis Dchars : all_chars is_idchar drv = true.

Definition recv_def (ts : list tok) : fundef :=
  {| fd_head := receive_toks (util_name drv who); fd_body := (lex " uint32_t recid = 0;" ++ ts ++ lex " return recid;")%list |}.

Lemma receive_yp : forall t ts, fill_tree (S (List.length l)) drv l 0 (List.length l) false = Some t -> (forall i, ypart M [write_code (S i) t] ts) ->
  ypart M (receive_text g drv l) (receive_toks (util_name drv who) ++ TP PLbrace :: (lex " uint32_t recid = 0;" ++ ts ++ lex " return recid;") ++ [TP PRbrace]).
Proof.
  intros t ts E Y. unfold receive_text. rewrite E, append_write, (ug_drv _ _ _ G). set (d := util_name drv who) in *.
  pose proof (no_nl_ident' _ IU) as ND. pose proof LU as LD. fold d in ND, LD.
  match goal with |- ypart M ?ps ?x => replace x with ((lex (receive_head d)) ++ lex "{" ++ lex " uint32_t recid = 0;" ++ ts ++ [] ++ lex " return recid;" ++ lex "}" ++ [])%list end.
  2: { rewrite receive_lex by exact IU. change (lex "{") with [TP PLbrace]. change (lex "}") with [TP PRbrace]. cbn [List.app]. rewrite <- !List.app_assoc. reflexivity. }
  apply yp_cons. { apply yp_line; [|reflexivity]. unfold receive_head. apply raw_intro; [rewrite !no_nl_app, ND; reflexivity|rewrite !app_len; cbn [String.length]; lia]. }
  apply yp_cons; [apply yp_line; [apply raw_intro; [reflexivity|cbn; lia]|reflexivity]|].
  apply yp_cons; [apply yp_line; [apply raw_intro; [reflexivity|cbn; lia]|reflexivity]|].
  apply yp_cons; [apply Y|]. apply yp_cons; [apply yp_nls|].
  apply yp_cons; [apply yp_line; [apply raw_intro; [reflexivity|cbn; lia]|reflexivity]|].
  apply yp_cons; [apply yp_line; [apply raw_intro; [reflexivity|cbn; lia]|reflexivity]|]. apply yp_nls.
Qed.

Lemma source_unit : forall utilh hi low tx c t ts st, no_nl utilh = true -> (String.length utilh <= 3000)%nat -> (0 <= hi < 2 ^ 32)%Z -> (0 <= low < 2 ^ 32)%Z ->
  c = sconcat (util_source g utilh drv hi low l tx) ->
  fill_tree (S (List.length l)) drv l 0 (List.length l) false = Some t -> parses ts st -> (forall i, ypart M [write_code (S i) t] ts) ->
  u_macros (compile M c) = M /\ u_funs (compile M c) = [recv_def ts].
Proof.
  intros utilh hi low tx c t ts st NU LH H1 H2 EC EF P Y.
  destruct (globs_yp l tx) as (tg & YG & FG).
  pose proof (receive_yp t ts EF Y) as YR.
  pose proof (head_yp utilh hi low NU LH H1 H2) as YH.
  pose proof (yp_app M _ _ _ _ YH (yp_app M _ _ _ _ YG YR)) as (ls & PT & YS).
  assert (EL : lines c = ls).
  { subst c. rewrite <- (part_lines _ _ PT). unfold util_source, source_head, source_globs. destruct l; [congruence|]. reflexivity. }
  destruct YS as [_ YS]. destruct (YS [] [] eq_refl) as (out & RO & TO). cbn [List.app] in TO.
  unfold compile, pp_run. rewrite EL.
  assert (RR : fold_left pp_line ls (mkst M [] []) = mkst M [] out) by exact RO.
  unfold mkst in RR at 1. rewrite RR. cbn [mkst pp_macros pp_out u_macros u_funs]. split; [reflexivity|].
  unfold otoks in TO. rewrite TO. cbn [rev map List.concat List.app]. unfold fundefs. change fstart with (fs0 []).
  rewrite fold_left_app, FG. rewrite fold_def.
  - reflexivity.
  - reflexivity.
  - intros h o. pose proof (srun_braces _ _ _ _ _ h [] o (receive_body ts st P) eq_refl) as B. rewrite List.app_nil_r in B. exact B.
Qed.
Hypothesis Ids : forall i j, (i < j < List.length l)%nat -> (g_id (nth i l no_message) < g_id (nth j l no_message))%Z.
Lemma source_funs : forall utilh hi low tx c, no_nl utilh = true -> (String.length utilh <= 3000)%nat -> (0 <= hi < 2 ^ 32)%Z -> (0 <= low < 2 ^ 32)%Z ->
  c = sconcat (util_source g utilh drv hi low l tx) ->
  exists ts st, parses ts st /\ (forall n C, c_macros C = M -> lookup "_id" M = None -> dispatches n C drv l 0 (List.length l) st) /\
    u_macros (compile M c) = M /\ u_funs (compile M c) = [recv_def ts].
Proof.
  intros utilh hi low tx c NU LH H1 H2 EC.
  destruct (tree_any drv l Ids Oks Dlen Dchars NE) as (t & st & EF & (ts & P & Y) & D').
  exists ts, st. split; [exact P|]. split; [intros n C EM LK; apply D'; now rewrite EM|].
  apply (source_unit utilh hi low tx c t ts st); auto.
Qed.
End Source.
