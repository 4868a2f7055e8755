(** Macros of the header of one generator run. *)

From Coq Require Import ZArith NArith List String Ascii Bool Lia ZifyBool Permutation.
From Verif Require Import Base Dbl CSyntax CSem CRun Types Formatter SigPrinter Writer Settings
  MainGen App CodecSpec MsgSpec LexLemmas BitLemmas CSemLemmas Chunks UnpackProof PPProof BodyLemmas
  UnpackBody UnpackFun PackProof PackBody PackFun SourceFun DriverSpec DriverProof HeaderSpec HeaderProof.
Import ListNotations.
Open Scope string_scope.

Lemma driver_header : forall drv g d h c, driver drv g d h c -> header_ok d ->
  head_ok g /\ exists ps ms, h = sconcat ps /\ Permutation ms (d_msgs d) /\ contains g (d_maxdlc d) ms ps.
Proof.
  intros drv g d h c [RUN [DI DL] MS ND] HO.
  destruct RUN as (srt & out & date & dbc & hi & low & nc & ni & nf & rest & SR & DT & DB & HI & LO & G & GM).
  set (s := configure drv out (common_info date) (driver_info dbc) hi low nc ni nf) in *.
  assert (EO : forall m, In m (d_msgs d) -> emit_ok m).
  { intros m I. destruct (MS m I) as (A & B & C). constructor; auto. now apply short_few. }
  destruct (map_res_loaded (d_msgs d)) as (xs0 & LM & F0).
  { intros m I. split; apply (EO m I). }
  unfold generate_main in GM. rewrite load_messages_map, LM in GM. cbn [bind] in GM.
  set (xs := srt ciexpr (fun x => g_id (x_msg x)) xs0) in *.
  assert (PX : Permutation xs xs0) by apply SR.
  destruct (loaded_self _ _ F0) as [FS EM].
  assert (PM : Permutation (map x_msg xs) (d_msgs d)) by (rewrite EM; now apply Permutation_map).
  assert (HK : forall x, In x xs -> hmsg_ok (x_msg x)).
  { intros x I. assert (IM : In (x_msg x) (d_msgs d)) by (eapply Permutation_in; [exact PM|now apply in_map]).
    constructor; [apply (MS _ IM)|]. intros sg S. eapply ho_sigs; eauto. }
  pose proof (configure_head drv out date dbc hi low nc ni nf DI DL DT DB HI LO) as HD. fold s in HD.
  rewrite <- G in *. split; [exact HD|].
  destruct (main_header g (d_maxdlc d) xs) as [hd| |] eqn:EH; cbn [bind] in GM; try discriminate.
  destruct (main_source g (f_coreh (st_f s)) xs) as [sc| |]; cbn [bind] in GM; try discriminate.
  cbn [List.app] in GM. injection GM as <- _ _.
  exists hd, (map x_msg xs). split; [reflexivity|]. split; [exact PM|].
  apply header_contains; auto. pose proof (ho_dlc d HO). lia.
Qed.

(** ** Object-like macros with one unsigned constant *)

Lemma define_const : forall x v r, is_ident x = true -> r = " (" ++ v ++ "U)" \/ r = " " ++ v ++ "U" ->
  pp_define (x ++ r) = (x, {| m_params := None; m_body := lex r |}).
Proof.
  intros x v r I R. unfold pp_define. rewrite span_ident; [|now apply ident_chars|].
  - destruct R as [-> | ->]; reflexivity.
  - destruct R as [-> | ->]; reflexivity.
Qed.
Lemma lex_paren_dec : forall z, (0 <= z < 2 ^ 32)%Z -> lex (" (" ++ pu z ++ "U)") = [TP PLpar; TInt U32 z; TP PRpar].
Proof.
  intros z H. unfold lex, pu. lexrun ltac:(fail).
  change (dec (Z.to_N z) ++ "U)") with (dec (Z.to_N z) ++ String "U" (String ")" "")).
  rewrite lex_decU; [|lia|reflexivity]. lexend. now rewrite Z2N.id by lia.
Qed.
Lemma lex_paren_hex : forall z, (0 <= z < 2 ^ 32)%Z -> lex (" (" ++ px z ++ "U)") = [TP PLpar; TInt U32 z; TP PRpar].
Proof.
  intros z H. unfold px. destruct (Z.eqb_spec z 0) as [->|N]; [reflexivity|].
  unfold lex, hexl. lexrun ltac:(fail).
  change (("0x" ++ print_base false 16 (Z.to_N z)) ++ "U)")
    with (String "0" (String "x" (print_base false 16 (Z.to_N z) ++ String "U" (String ")" "")))).
  rewrite lex_hexU; [|lia|reflexivity]. lexend. now rewrite Z2N.id by lia.
Qed.

Lemma define_parens : forall x v r, is_ident x = true -> (0 <= v < 2 ^ 32)%Z ->
  r = " (" ++ pu v ++ "U)" \/ r = " (" ++ px v ++ "U)" ->
  fst (pp_define (x ++ r)) = x /\
  exists b, snd (pp_define (x ++ r)) = {| m_params := None; m_body := b |} /\ parse_expr_toks b = Some (EInt U32 v).
Proof.
  intros x v r I V R. rewrite (define_const x (if String.eqb r (" (" ++ pu v ++ "U)") then pu v else px v) r I).
  - split; [reflexivity|]. eexists. split; [reflexivity|]. destruct R as [-> | ->].
    + rewrite lex_paren_dec by lia. reflexivity.
    + rewrite lex_paren_hex by lia. reflexivity.
  - left. destruct (String.eqb_spec r (" (" ++ pu v ++ "U)")); [auto|]. destruct R; [congruence|auto].
Qed.

Lemma header_const_of : forall drv g d h c conf msg k v r, driver drv g d h c -> header_ok d -> In msg (d_msgs d) ->
  In (k, r) (consts msg) -> (0 <= v < 2 ^ 32)%Z -> r = " (" ++ pu v ++ "U)" \/ r = " (" ++ px v ++ "U)" ->
  all_chars is_idchar k = true -> once (g_name msg ++ k) h -> const_macro (after_header conf h) (g_name msg ++ k) v.
Proof.
  intros drv g d h c conf msg k v r DR HO IM IK V R K O.
  destruct (driver_header _ _ _ _ _ DR HO) as (HD & ps & ms & -> & PM & CN).
  assert (MO : msg_ok msg) by (apply (dr_msgs _ _ _ _ _ DR _ IM)).
  assert (IMS : In msg ms) by (eapply Permutation_in; [apply Permutation_sym; eauto|auto]).
  assert (ID : is_ident (g_name msg ++ k) = true) by (apply ident_prefix; [apply MO|exact K]).
  destruct (define_parens _ v r ID V R) as (E & b & B1 & B2).
  exists b. split; [|exact B2]. rewrite <- B1. rewrite <- E at 1.
  apply (found_define conf ps _ [] _ [] (cn_const _ _ _ _ CN msg k r IMS IK)).
  - cbn [List.app]. rewrite app_assoc. apply part_raw. now apply const_raw.
  - apply bal_nil.
  - now apply ident_head.
  - now rewrite E.
Qed.

(** the constants of a message in the header *)
Theorem header_consts : forall drv g d h c conf msg, driver drv g d h c -> header_ok d -> In msg (d_msgs d) ->
  once (g_name msg ++ "_DLC") h -> once (g_name msg ++ "_CANID") h -> once (g_name msg ++ "_IDE") h ->
  id_consts (after_header conf h) msg.
Proof.
  intros drv g d h c conf msg DR HO IM O1 O2 O3.
  assert (MO : msg_ok msg) by (apply (dr_msgs _ _ _ _ _ DR _ IM)).
  pose proof (mo_dlc _ MO). pose proof (mo_id _ MO). pose proof (mo_ext _ MO).
  constructor.
  - apply (header_const_of drv g d h c conf msg "_DLC" (g_dlc msg) (" (" ++ pu (g_dlc msg) ++ "U)")); auto; [cbn; tauto|lia].
  - apply (header_const_of drv g d h c conf msg "_CANID" (g_id msg) (" (" ++ px (g_id msg) ++ "U)")); auto; [cbn; tauto|lia].
  - apply (header_const_of drv g d h c conf msg "_IDE" (g_ext msg) (" (" ++ pu (g_ext msg) ++ "U)")); auto; [cbn; tauto|lia].
Qed.

(** *** The two macros the configuration may set *)

Lemma define_bare : forall x v, is_ident x = true -> (0 <= v < 2 ^ 32)%Z ->
  fst (pp_define (x ++ " " ++ pu v ++ "U")) = x /\
  exists b, snd (pp_define (x ++ " " ++ pu v ++ "U")) = {| m_params := None; m_body := b |} /\ parse_expr_toks b = Some (EInt U32 v).
Proof.
  intros x v I V. rewrite (define_const x (pu v)) by auto. split; [reflexivity|]. eexists. split; [reflexivity|].
  unfold lex, pu. lexrun ltac:(fail). rewrite lex_word_end.
  - rewrite word_decU. unfold int_const. replace (Z.of_N (Z.to_N v) <? 2 ^ 32)%Z with true by lia.
    rewrite Z2N.id by lia. reflexivity.
  - intros X. destruct (dec_starts_digit (Z.to_N v) "U") as (a & b & E & _). rewrite E in X. discriminate.
  - rewrite all_chars_app, dec_idchars. reflexivity.
Qed.

(** a macro that the configuration may set before the header, with the default of the header *)
Definition defaulted (conf M : list (string * macro)) (x : string) (v : Z) : Prop :=
  match lookup x conf with Some mc => lookup x M = Some mc | None => const_macro M x v end.

Theorem header_max : forall drv g d h c conf, driver drv g d h c -> header_ok d ->
  once (n_DRV g ++ "_MAX_DLC_VALUE") h ->
  defaulted conf (after_header conf h) (n_DRV g ++ "_MAX_DLC_VALUE") (d_maxdlc d).
Proof.
  intros drv g d h c conf DR HO O. destruct (driver_header _ _ _ _ _ DR HO) as (HD & ps & ms & -> & PM & CN).
  pose proof (so_gen _ _ (hd_src _ HD)) as GO. pose proof (ho_dlc d HO) as MX.
  assert (ID : is_ident (maxdlc_name g) = true) by (apply ident_prefix; [apply GO|reflexivity]).
  destruct (define_bare (maxdlc_name g) (d_maxdlc d) ID ltac:(lia)) as (E & b & B1 & B2).
  destruct (go_len g GO) as (_ & _ & _ & _ & G5 & _). pose proof (no_nl_ident' _ (go_DRV g GO)) as ND.
  pose proof (pu_len (d_maxdlc d) ltac:(lia)) as LM.
  change (n_DRV g ++ "_MAX_DLC_VALUE") with (maxdlc_name g) in *.
  assert (LK : lookup (maxdlc_name g) (after_header conf (sconcat ps))
           = match lookup (maxdlc_name g) conf with Some mc => Some mc | None => Some (snd (pp_define (max_s g (d_maxdlc d)))) end).
  { apply (found_guarded conf ps _ ["// The value which was found out by generator (real max value)"] "#endif" _ _ (cn_max _ _ _ _ CN)).
    - unfold max_guard. do 3 (apply (part_app [_] [_]); [apply part_raw; first [unfold max_s, maxdlc_name; raw|apply raw_intro; [reflexivity|cbn; lia]]|]).
      apply part_raw. apply raw_intro; [reflexivity|cbn; lia].
    - exact ID.
    - apply ident_head; auto.
    - exact E.
    - apply bal_plains. repeat constructor.
    - intros [].
    - reflexivity.
    - exact O. }
  unfold defaulted. destruct (lookup (maxdlc_name g) conf); [exact LK|]. exists b. split; [|exact B2]. rewrite LK. f_equal. exact B1.
Qed.

Theorem header_initial : forall drv g d h c conf, driver drv g d h c -> header_ok d ->
  once (n_DRV g ++ "_INITIAL_BYTE_VALUE") h ->
  defaulted conf (after_header conf h) (n_DRV g ++ "_INITIAL_BYTE_VALUE") 0.
Proof.
  intros drv g d h c conf DR HO O. destruct (driver_header _ _ _ _ _ DR HO) as (HD & ps & ms & -> & PM & CN).
  pose proof (so_gen _ _ (hd_src _ HD)) as GO.
  assert (ID : is_ident (initial_name g) = true) by (apply ident_prefix; [apply GO|reflexivity]).
  destruct (define_bare (initial_name g) 0 ID ltac:(lia)) as (E & b & B1 & B2).
  destruct (go_len g GO) as (_ & _ & _ & _ & G5 & _). pose proof (no_nl_ident' _ (go_DRV g GO)) as ND.
  change (n_DRV g ++ "_INITIAL_BYTE_VALUE") with (initial_name g) in *.
  assert (LK : lookup (initial_name g) (after_header conf (sconcat ps))
           = match lookup (initial_name g) conf with Some mc => Some mc | None => Some (snd (pp_define (initial_s g))) end).
  { apply (found_guarded conf ps _ [] "#endif" _ _ (cn_ini _ _ _ _ CN)).
    - unfold ini_guard. apply (part_app [_] [_]); [apply part_raw; unfold initial_name; raw|].
      apply (part_app [_] [_]); [apply part_raw; unfold initial_s, initial_name; raw|].
      apply part_raw. apply raw_intro; [reflexivity|cbn; lia].
    - exact ID.
    - apply ident_head; auto.
    - exact E.
    - apply bal_nil.
    - intros [].
    - reflexivity.
    - exact O. }
  unfold defaulted. destruct (lookup (initial_name g) conf); [exact LK|]. exists b. split; [|exact B2]. rewrite LK. f_equal. exact B1.
Qed.

(** *** The bound of the initialisation loop *)

Lemma span_params : forall p r, all_chars is_idchar p = true ->
  span (fun c => negb (Ascii.eqb c ")")) (p ++ String ")" r) = (p, String ")" r).
Proof.
  induction p as [|c p IH]; intros r A; [reflexivity|]. cbn [all_chars] in A. apply andb_true_iff in A. destruct A as [A1 A2].
  cbn [String.append span]. destruct (Ascii.eqb_spec c ")") as [->|]; [discriminate|]. cbn [negb]. now rewrite IH.
Qed.
Lemma lex_ident_end : forall x, is_ident x = true -> lex x = [TId x].
Proof.
  intros x I. unfold lex. rewrite lex_word_end; [|destruct x; discriminate|now apply ident_chars].
  now rewrite word_ident.
Qed.
Lemma define_fun1 : forall x p body, is_ident x = true -> is_ident p = true ->
  pp_define (x ++ "(" ++ p ++ ")" ++ body) = (x, {| m_params := Some [p]; m_body := lex body |}).
Proof.
  intros x p body I P. unfold pp_define. rewrite span_ident; [|now apply ident_chars|reflexivity].
  cbn [String.append]. unfold pp_params. rewrite span_params by now apply ident_chars. rewrite lex_ident_end by auto. reflexivity.
Qed.

Lemma validate_macro : forall g, is_ident (n_DRV g) = true ->
  exists b, pp_define (validate_s g) = (validate_name g, {| m_params := Some ["msgDlc"]; m_body := b |}) /\
    parse_expr_toks b = Some (ECond (EBin OLe (EId "msgDlc") (EId (maxdlc_name g))) (EId "msgDlc") (EId (maxdlc_name g))).
Proof.
  intros g I.
  assert (ID : is_ident (maxdlc_name g) = true) by (apply ident_prefix; auto).
  assert (IV : is_ident (validate_name g) = true) by (apply ident_prefix; auto).
  pose proof (define_fun1 (validate_name g) "msgDlc" (" (((msgDlc) <= (" ++ maxdlc_name g ++ ")) ? (msgDlc) : (" ++ maxdlc_name g ++ "))") IV eq_refl) as E.
  eexists. split; [exact E|].
  unfold lex. lexrun ltac:(first [rewrite lex_ident' by auto|rewrite lex_ident by auto]). lexend.
  assert (NT : is_typename (maxdlc_name g) = false).
  { eapply not_typename; [unfold maxdlc_name; rewrite last_char_ends by discriminate; reflexivity| |]; reflexivity. }
  generalize dependent (maxdlc_name g). intros X _ _ NT. change (is_typename "msgDlc") with false.
  unfold parse_expr_toks. cbn -[is_typename]. change (is_typename "msgDlc") with false. cbn -[is_typename].
  rewrite NT. cbn -[is_typename]. change (is_typename "msgDlc") with false. cbn -[is_typename]. rewrite NT. reflexivity.
Qed.

Lemma found_validate : forall drv g d h c conf, driver drv g d h c -> header_ok d -> once (n_DRV g ++ "_VALIDATE_DLC") h ->
  exists b, lookup (validate_name g) (after_header conf h) = Some {| m_params := Some ["msgDlc"]; m_body := b |} /\
    parse_expr_toks b = Some (ECond (EBin OLe (EId "msgDlc") (EId (maxdlc_name g))) (EId "msgDlc") (EId (maxdlc_name g))).
Proof.
  intros drv g d h c conf DR HO O. destruct (driver_header _ _ _ _ _ DR HO) as (HD & ps & ms & -> & PM & CN).
  pose proof (so_gen _ _ (hd_src _ HD)) as GO. destruct (validate_macro g (go_DRV g GO)) as (b & E & B).
  destruct (go_len g GO) as (_ & _ & _ & _ & G5 & _). pose proof (no_nl_ident' _ (go_DRV g GO)) as ND.
  exists b. split; [|exact B].
  pose proof (found_define conf ps _ [] (validate_s g) [] (cn_validate _ _ _ _ CN)) as F. rewrite E in F. cbn [fst snd] in F. apply F.
  - apply part_raw. unfold validate_s, validate_name, maxdlc_name. raw.
  - apply bal_nil.
  - unfold validate_s. apply ident_head. apply ident_prefix; [apply GO|reflexivity].
  - exact O.
Qed.

(** with a table that knows the three macros, the bound is the smaller of the two lengths *)
Lemma validate_eval : forall n c g x b dlc mx m, 
  lookup (validate_name g) (c_macros c) = Some {| m_params := Some ["msgDlc"]; m_body := b |} ->
  parse_expr_toks b = Some (ECond (EBin OLe (EId "msgDlc") (EId (maxdlc_name g))) (EId "msgDlc") (EId (maxdlc_name g))) ->
  const_macro (c_macros c) x dlc -> const_macro (c_macros c) (maxdlc_name g) mx -> maxdlc_name g <> "msgDlc" ->
  (0 <= dlc < 2 ^ 32)%Z -> (0 <= mx < 2 ^ 32)%Z ->
  m_arr m x = None ->
  eval (S (S n)) c m [] (ECall (validate_name g) [EId x]) = Ok (VI U32 (Z.min dlc mx)).
Proof.
  intros n c g x b dlc mx m LV PB (b1 & L1 & P1) (b2 & L2 & P2) NE R1 R2 MA.
  cbn [eval]. rewrite MA. cbn [lookup]. rewrite L1, P1. cbn [bind eval]. rewrite LV, PB. cbn [bind_args eval lookup].
  change ("msgDlc" =? "msgDlc")%string with true. cbn [bind].
  destruct (String.eqb_spec (maxdlc_name g) "msgDlc") as [|]; [contradiction|]. rewrite L2, P2. cbn [eval bind].
  replace (eval n c m [] (EInt U32 mx)) with (Ok (VI U32 mx)) by (destruct n; reflexivity). cbn [bind].
  replace (bin_val OLe (VI U32 dlc) (VI U32 mx)) with (Ok (vbool (dlc <=? mx)%Z)).
  2: { unfold bin_val, int_op. cbv zeta. change (usual U32 U32) with U32. rewrite !conv_id by (unfold fits; cbn; lia). reflexivity. }
  cbn [bind]. destruct (Z.leb_spec dlc mx); [rewrite Z.min_l by lia|rewrite Z.min_r by lia]; reflexivity.
Qed.

(** ** Macros known in the source *)

Lemma guard_keeps : forall x y s M mc, lookup x M = Some mc -> fst (pp_define s) = y -> lookup x (guard y s M) = Some mc.
Proof.
  intros x y s M mc L F. unfold guard, defined. destruct (lookup y M) eqn:E; [exact L|]. destruct (pp_define s) as [z mc'].
  cbn [fst] in F. subst z. cbn [lookup]. destruct (String.eqb_spec x y) as [->|]; [congruence|exact L].
Qed.
Lemma defaults_keep : forall x M mc, lookup x M = Some mc -> lookup x (with_defaults M) = Some mc.
Proof. intros x M mc L. unfold with_defaults. apply guard_keeps; [|reflexivity]. apply guard_keeps; [exact L|reflexivity]. Qed.
Lemma unit_keeps : forall drv g d h c M x mc, driver drv g d h c -> lookup x M = Some mc ->
  lookup x (u_macros (compile M c)) = Some mc.
Proof.
  intros drv g d h c M x mc DR L. destruct (driver_unit drv g d h c M DR) as (ms & coreh & _ & _ & _ & _ & _ & CP).
  rewrite CP. cbn [u_macros]. now apply defaults_keep.
Qed.
Lemma unit_const : forall drv g d h c M x v, driver drv g d h c -> const_macro M x v -> const_macro (u_macros (compile M c)) x v.
Proof. intros drv g d h c M x v DR (b & L & P). exists b. split; [eapply unit_keeps; eauto|exact P]. Qed.
Lemma unit_ids : forall drv g d h c M msg, driver drv g d h c -> id_consts M msg -> id_consts (u_macros (compile M c)) msg.
Proof. intros drv g d h c M msg DR [A B C]. constructor; eapply unit_const; eauto. Qed.

(** the bound of the loop, for the macros of a compiled source *)
Lemma header_bound : forall n k drv g d h src conf mx msg user calls m, driver drv g d h src -> header_ok d -> In msg (d_msgs d) ->
  let u := compile (after_header conf h) src in
  let c := unit_ctx k u user calls in
  once (n_DRV g ++ "_VALIDATE_DLC") h -> once (g_name msg ++ "_DLC") h ->
  const_macro (after_header conf h) (n_DRV g ++ "_MAX_DLC_VALUE") mx -> (0 <= mx < 2 ^ 32)%Z ->
  m_arr m (g_name msg ++ "_DLC") = None ->
  eval (S (S n)) c m [] (ECall (n_DRV g ++ "_VALIDATE_DLC") [EId (g_name msg ++ "_DLC")]) = Ok (VI U32 (Z.min (g_dlc msg) mx)).
Proof.
  intros n k drv g d h src conf mx msg user calls m DR HO IM u c OV OD CM MX MA.
  destruct (found_validate drv g d h src conf DR HO OV) as (b & LV & PB).
  assert (MO : msg_ok msg) by (apply (dr_msgs _ _ _ _ _ DR _ IM)). pose proof (mo_dlc _ MO) as DL.
  apply (validate_eval n c g (g_name msg ++ "_DLC") b (g_dlc msg) mx m).
  - subst c. cbn [unit_ctx c_macros]. eapply unit_keeps; eauto.
  - exact PB.
  - subst c. cbn [unit_ctx c_macros]. eapply unit_const; eauto.
    apply (header_const_of drv g d h src conf msg "_DLC" (g_dlc msg) (" (" ++ pu (g_dlc msg) ++ "U)")); auto; [cbn; tauto|lia].
  - subst c. cbn [unit_ctx c_macros]. eapply unit_const; eauto.
  - unfold maxdlc_name. intros X. assert (Y : last_char (n_DRV g ++ "_MAX_DLC_VALUE") = last_char "msgDlc") by now rewrite X.
    rewrite last_char_ends in Y by discriminate. discriminate.
  - lia.
  - exact MX.
  - exact MA.
Qed.
