(** What Receive does and what the utility header declares. *)

From Coq Require Import ZArith NArith List String Ascii Bool Lia ZifyBool Permutation Sorted.
From Verif Require Import Base Dbl CSyntax CSem CRun Types Formatter SigPrinter Writer Settings MainGen UtilGen App CodecSpec MsgSpec
  LexLemmas PPProof BodyLemmas UnpackBody UnpackFun SourceFun DriverSpec DriverProof HeaderSpec HeaderProof HeaderRun CodecEnv StructSpec StructProof SpliceProof
  UtilSpec UtilTree UtilProof.
Import ListNotations.
Open Scope string_scope.

(** ** Groups *)

Lemma zmem_in : forall z l, zmem z l = true <-> In z l.
Proof.
  intros z l. unfold zmem. rewrite existsb_exists. split.
  - intros (x & I & E). apply Z.eqb_eq in E. now subst.
  - intros I. exists z. split; [exact I|apply Z.eqb_refl].
Qed.
Lemma nodup_inj : forall A B (f : A -> B) l a b, NoDup (map f l) -> In a l -> In b l -> f a = f b -> a = b.
Proof.
  induction l as [|x l IH]; intros a b N A1 B1 E; [destruct A1|]. cbn [map] in N. inversion N as [|y ys NI N']; subst.
  destruct A1 as [->|A1], B1 as [->|B1]; auto.
  - exfalso. apply NI. rewrite E. now apply in_map.
  - exfalso. apply NI. rewrite <- E. now apply in_map.
Qed.
Lemma smem_In : forall x l, smem x l = true <-> In x l.
Proof.
  intros x l. unfold smem. rewrite existsb_exists. split.
  - intros (y & I & E). apply String.eqb_eq in E. now subst.
  - intros I. exists x. split; [exact I|apply String.eqb_refl].
Qed.

Definition rx_of (d : dbclist) (who : option string) : list message := group_rx (util_groups d who) (d_msgs d).
Definition tx_of (d : dbclist) (who : option string) : list message := group_tx (util_groups d who) (d_msgs d).

Lemma rx_of_in : forall d who m, NoDup (map g_id (d_msgs d)) -> In m (rx_of d who) <-> In m (d_msgs d) /\ received who m.
Proof.
  intros d who m N. unfold rx_of, group_rx, received. rewrite filter_In, andb_true_iff.
  split; intros [I [A B]]; (split; [exact I|]; split; [exact A|]).
  - destruct who as [n|]; cbn [util_groups node_groups all_groups k_both k_rx zmem existsb orb] in *; [|exact Logic.I].
    apply zmem_in, in_map_iff in B. destruct B as (m' & E & F). apply filter_In in F. destruct F as [F1 F2].
    assert (m' = m) by (eapply nodup_inj; eauto). subst m'. now apply smem_In.
  - destruct who as [n|]; cbn [util_groups node_groups all_groups k_both k_rx zmem existsb orb]; apply zmem_in, in_map; [|exact I].
    apply filter_In. split; [exact I|now apply smem_In].
Qed.
Lemma tx_of_in : forall d who m, NoDup (map g_id (d_msgs d)) -> In m (tx_of d who) <-> In m (d_msgs d) /\ sent who m.
Proof.
  intros d who m N. unfold tx_of, group_tx, sent. rewrite filter_In, andb_true_iff.
  split; intros [I [A B]]; (split; [exact I|]; split; [exact A|]).
  - destruct who as [n|]; cbn [util_groups node_groups all_groups k_both k_tx zmem existsb orb] in *; [|discriminate].
    apply zmem_in, in_map_iff in B. destruct B as (m' & E & F). apply filter_In in F. destruct F as [F1 F2].
    assert (m' = m) by (eapply nodup_inj; eauto). subst m'. now apply smem_In.
  - destruct who as [n|]; cbn [util_groups node_groups all_groups k_both k_tx zmem existsb orb]; [|destruct B].
    apply zmem_in, in_map, filter_In. split; [exact I|now apply smem_In].
Qed.

Lemma nodup_filter : forall A B (f : A -> B) p l, NoDup (map f l) -> NoDup (map f (filter p l)).
Proof.
  induction l as [|x l IH]; intros N; [constructor|]. cbn [map] in N. inversion N as [|y ys NI N']; subst. cbn [filter].
  destruct (p x); [|auto]. cbn [map]. constructor; [|auto]. intros I. apply NI. apply in_map_iff in I. destruct I as (z & E & F).
  apply filter_In in F. apply in_map_iff. exists z. tauto.
Qed.

(** sorted and without duplicates: strictly increasing *)
Lemma strict : forall l, StronglySorted (fun a b => (g_id a <= g_id b)%Z) l -> NoDup (map g_id l) ->
  forall i j, (i < j < List.length l)%nat -> (g_id (nth i l no_message) < g_id (nth j l no_message))%Z.
Proof.
  intros l S. induction S as [|x l S IH F]; intros N i j L; [cbn in L; lia|]. cbn [map] in N. inversion N as [|y ys NI N']; subst.
  destruct j as [|j]; [lia|]. cbn [List.length] in L. destruct i as [|i]; cbn [nth].
  - assert (I : In (nth j l no_message) l) by (apply nth_In; lia). rewrite Forall_forall in F. specialize (F _ I).
    assert (g_id x <> g_id (nth j l no_message)); [|lia]. intros E. apply NI. rewrite E. now apply in_map.
  - apply IH; [exact N'|lia].
Qed.

(** ** One run *)

Record ufacts (drv : string) (d : dbclist) (who : option string) (h c : string) (g : gendesc) (rx tx : list message) : Prop := {
  uf_gen : ugen_ok g drv who;
  uf_ver : let g0 := st_g (configure drv "" "" "" 0 0 false false false) in n_verhi g = n_verhi g0 /\ n_verlow g = n_verlow g0;
  uf_rx : Permutation rx (rx_of d who) /\ StronglySorted (fun a b => (g_id a <= g_id b)%Z) rx;
  uf_tx : Permutation tx (tx_of d who) /\ StronglySorted (fun a b => (g_id a <= g_id b)%Z) tx;
  uf_h : h = sconcat (util_header g (str_tolower drv) rx tx);
  uf_c : exists uh, no_nl uh = true /\ (String.length uh <= 3000)%nat /\ c = sconcat (util_source g uh drv (d_verhi d) (d_verlow d) rx tx);
  uf_uh : c = sconcat (util_source g (util_name drv who ++ "-binutil.h") drv (d_verhi d) (d_verlow d) rx tx)
}.

Lemma lower_len : forall s, String.length (str_tolower s) = String.length s.
Proof. intros s. apply len_map. Qed.
Definition not_newline (c : ascii) : bool := negb (Ascii.eqb c NL).
Lemma no_nl_all : forall s, no_nl s = all_chars not_newline s.
Proof.
  induction s as [|c s IH]; [reflexivity|]. unfold no_nl, not_newline in *. cbn [has_char all_chars]. rewrite <- IH. rewrite negb_orb. 
  now rewrite (Ascii.eqb_sym NL c) || reflexivity.
Qed.
Lemma no_nl_lower : forall s, no_nl s = true -> no_nl (str_tolower s) = true.
Proof. intros s H. rewrite no_nl_all in *. apply all_map; [|exact H]. intros c. destruct c as [[] [] [] [] [] [] [] []]; vm_compute; auto. Qed.

Lemma low_low : forall s, str_tolower (str_tolower s) = str_tolower s.
Proof.
  unfold str_tolower. induction s as [|c s IH]; [reflexivity|]. cbn [map_string]. rewrite IH. f_equal. clear. destruct c as [[] [] [] [] [] [] [] []]; reflexivity.
Qed.
Lemma low_app : forall f a b, map_string f (a ++ b) = map_string f a ++ map_string f b.
Proof. intros f a b. induction a as [|c a IH]; [reflexivity|]. cbn [append map_string]. now rewrite IH. Qed.
Lemma utility_facts : forall drv d who h c, utility drv d who h c -> exists g rx tx, ufacts drv d who h c g rx tx.
Proof.
  intros drv d who h c U. destruct (ut_run _ _ _ _ _ U) as (srt & out & date & dbc & nc & ni & nf & ph & pc & X). cbv zeta in X.
  destruct X as (SRT & D & B & H1 & H2 & E). destruct (ut_drv _ _ _ _ _ U) as [ID LD]. destruct (ut_name _ _ _ _ _ U) as [IU LU].
  set (s := util_settings drv who (configure drv out (common_info date) (driver_info dbc) (d_verhi d) (d_verlow d) nc ni nf)) in *.
  assert (UH : no_nl (f_utilh (st_f s)) = true /\ (String.length (f_utilh (st_f s)) <= 3000)%nat).
  { subst s. destruct who as [n|]; cbn [util_settings util_name node_settings configure st_f f_utilh] in *.
    - split; [apply no_nl_lower; rewrite no_nl_app, (no_nl_ident' _ IU); reflexivity|rewrite lower_len, app_len; cbn [String.length]; lia].
    - split; [rewrite !no_nl_app, (no_nl_ident' _ IU); reflexivity|rewrite !app_len; cbn [String.length]; lia]. }
  exists (st_g s). unfold generate_util in E. fold (rx_of d who) in E. fold (tx_of d who) in E.
  exists (srt message g_id (rx_of d who)), (srt message g_id (tx_of d who)).
  destruct (SRT message g_id (rx_of d who)) as [R1 R2]. destruct (SRT message g_id (tx_of d who)) as [T1 T2].
  assert (EH : h = sconcat (util_header (st_g s) (str_tolower drv) (srt message g_id (rx_of d who)) (srt message g_id (tx_of d who)))) by congruence.
  assert (EC : c = sconcat (util_source (st_g s) (f_utilh (st_f s)) drv (d_verhi d) (d_verlow d) (srt message g_id (rx_of d who)) (srt message g_id (tx_of d who)))) by congruence.
  constructor; auto.
  - subst s. now apply util_gen.
  - subst s. destruct who; split; reflexivity.
  - exists (f_utilh (st_f s)). destruct UH as [UH1 UH2]. auto.
  - rewrite EC. f_equal. f_equal. subst s. destruct who as [n|]; [|reflexivity].
    cbn [util_settings util_name node_settings configure st_f f_utilh]. unfold str_tolower at 1. rewrite low_app. fold (str_tolower (str_tolower (n ++ "_" ++ drv))).
    now rewrite low_low.
Qed.

Lemma facts_ok : forall drv d who h c g rx tx, utility drv d who h c -> ufacts drv d who h c g rx tx -> (forall m, In m rx -> umsg_ok m) /\ (forall m, In m tx -> umsg_ok m).
Proof.
  intros drv d who h c g rx tx U F. destruct (uf_rx _ _ _ _ _ _ _ _ F) as [P _]. destruct (uf_tx _ _ _ _ _ _ _ _ F) as [Q _].
  split; intros m I; apply (ut_msgs _ _ _ _ _ U).
  - apply (Permutation_in _ P) in I. unfold rx_of, group_rx in I. now apply filter_In in I.
  - apply (Permutation_in _ Q) in I. unfold tx_of, group_tx in I. now apply filter_In in I.
Qed.

(** ** Receive *)

Lemma receive_run : forall drv d who h c n M calls, utility drv d who h c -> NoDup (map g_id (d_msgs d)) ->
  (exists msg, In msg (d_msgs d) /\ received who msg) -> lookup "_id" M = None ->
  exists st, (forall m i, m_scal m "_id" = Some (LInt U32, VI U32 i) -> (0 <= i < 2 ^ 32)%Z ->
      (forall msg, In msg (d_msgs d) -> received who msg -> g_id msg = i -> exec n (util_ctx M calls) m st = exec n (util_ctx M calls) m (call_s drv msg)) /\
      ((forall msg, In msg (d_msgs d) -> received who msg -> g_id msg <> i) -> exec n (util_ctx M calls) m st = Ok (m, None))) /\
    forall m, run_receive n M calls drv who c m = exec_list n (util_ctx M calls) m [s_recid; st; s_ret].
Proof.
  intros drv d who h c n M calls U N (m0 & I0 & R0) LK. destruct (utility_facts _ _ _ _ _ U) as (g & rx & tx & F).
  destruct (facts_ok _ _ _ _ _ _ _ _ U F) as [OR _]. destruct (uf_rx _ _ _ _ _ _ _ _ F) as [P SS]. destruct (uf_c _ _ _ _ _ _ _ _ F) as (uh & UH1 & UH2 & EC).
  destruct (ut_run _ _ _ _ _ U) as (xs & xo & xd & xb & xn & xi & xf & xh & xc & X). cbv zeta in X. destruct X as (_ & _ & _ & H1 & H2 & _).
  destruct (ut_drv _ _ _ _ _ U) as [ID LD]. destruct (ut_name _ _ _ _ _ U) as [IU LU].
  assert (IN : forall m, In m rx <-> In m (d_msgs d) /\ received who m).
  { intros m. rewrite <- (rx_of_in d who m N). split; apply Permutation_in; [exact P|now apply Permutation_sym]. }
  assert (NE : rx <> []) by (intros ->; destruct (proj2 (IN m0) (conj I0 R0))).
  assert (ND : NoDup (map g_id rx)).
  { apply (Permutation_NoDup (l := map g_id (rx_of d who))); [apply Permutation_map; now apply Permutation_sym|]. now apply nodup_filter. }
  destruct (source_funs M g drv who (uf_gen _ _ _ _ _ _ _ _ F) IU LU rx OR NE LD (ident_chars _ ID) (strict rx SS ND) uh _ _ tx c UH1 UH2 H1 H2 EC)
    as (ts & st & PS & D & UM & UF).
  exists st. split.
  - intros m i Ei I. destruct (D n (util_ctx M calls) eq_refl LK m i Ei I) as [D1 D2]. split.
    + intros msg IM RM G. destruct (In_nth rx msg no_message (proj2 (IN msg) (conj IM RM))) as (j & J & EJ). rewrite <- EJ. apply D1; [lia|now rewrite EJ].
    + intros NO. apply D2. intros j J. pose proof (proj1 (IN _) (nth_In rx no_message (proj2 J))) as [A B]. now apply NO.
  - intros m. unfold run_receive. rewrite UM, UF. unfold run_fun.
    assert (HN : head_name (fd_head (recv_def drv who ts)) = Some (util_name drv who ++ "_Receive")) by reflexivity.
    cbn [find_fun]. rewrite HN, String.eqb_refl. unfold recv_def.
    unfold parse_stmts. cbn [fd_body]. rewrite (receive_body ts st PS). reflexivity.
Qed.

Lemma id_kept : forall m, m_scal (zero_recid m) "_id" = m_scal m "_id".
Proof. reflexivity. Qed.

Lemma exec_cons_ok : forall n C m s r m', exec n C m s = Ok (m', None) -> exec_list n C m (s :: r) = exec_list n C m' r.
Proof. intros n C m s r m' E. unfold exec_list. cbn [exec]. rewrite E. reflexivity. Qed.
Lemma exec_cons_bind : forall n C m s r, exec_list n C m (s :: r) =
  (do mr <- exec n C m s; match mr with (m', Some v) => Ok (m', Some v) | (m', None) => exec_list n C m' r end).
Proof. intros n C m s r. unfold exec_list. cbn [exec]. destruct (exec n C m s) as [[m' [v|]]| |]; reflexivity. Qed.
Lemma exec_recid : forall n M calls m, exec n (util_ctx M calls) m s_recid = Ok (zero_recid m, None).
Proof. intros n M calls m. destruct n; reflexivity. Qed.
Lemma exec_ret : forall n M calls m v, lookup "recid" M = None -> m_scal m "recid" = Some v -> exec_list n (util_ctx M calls) m [s_ret] = Ok (m, Some (snd v)).
Proof.
  intros n M calls m [t v] L E. rewrite exec_cons_bind. unfold s_ret. cbn [exec].
  assert (X : eval n (util_ctx M calls) m [] (EId "recid") = Ok v) by (destruct n; cbn [eval lookup util_ctx c_macros]; rewrite L, E; reflexivity).
  rewrite X. reflexivity.
Qed.

Lemma receive_unmapped : forall drv d who h c n M calls m i, utility drv d who h c -> NoDup (map g_id (d_msgs d)) ->
  (exists msg, In msg (d_msgs d) /\ received who msg) -> lookup "_id" M = None -> lookup "recid" M = None ->
  m_scal m "_id" = Some (LInt U32, VI U32 i) -> (0 <= i < 2 ^ 32)%Z ->
  (forall msg, In msg (d_msgs d) -> received who msg -> g_id msg <> i) ->
  run_receive n M calls drv who c m = Ok (zero_recid m, Some (VI U32 0)).
Proof.
  intros drv d who h c n M calls m i U N EX L1 L2 Ei I NO. destruct (receive_run _ _ _ _ _ n M calls U N EX L1) as (st & D & R). rewrite R.
  rewrite (exec_cons_ok _ _ _ _ _ _ (exec_recid n M calls m)). destruct (D (zero_recid m) i ltac:(rewrite id_kept; exact Ei) I) as [_ D2].
  rewrite (exec_cons_ok _ _ _ _ _ _ (D2 NO)). exact (exec_ret n M calls (zero_recid m) (LInt U32, VI U32 0) L2 eq_refl).
Qed.

Lemma receive_mapped : forall drv d who h c n M calls m i msg f m' v, utility drv d who h c -> NoDup (map g_id (d_msgs d)) ->
  In msg (d_msgs d) -> received who msg -> lookup "_id" M = None -> lookup "recid" M = None ->
  m_scal m "_id" = Some (LInt U32, VI U32 i) -> (0 <= i < 2 ^ 32)%Z -> g_id msg = i ->
  calls (unpack_name drv msg) = Some f -> f (unpack_args msg) (zero_recid m) = Ok (m', VI U32 v) -> (0 <= v < 2 ^ 32)%Z ->
  m_scal m' "recid" = Some (LInt U32, VI U32 0) ->
  run_receive n M calls drv who c m = Ok (set_scal m' "recid" (LInt U32, VI U32 v), Some (VI U32 v)).
Proof.
  intros drv d who h c n M calls m i msg f m' v U N IM RM L1 L2 Ei I EI CF RF V SC.
  destruct (receive_run _ _ _ _ _ n M calls U N (ex_intro _ msg (conj IM RM)) L1) as (st & D & R). rewrite R.
  rewrite (exec_cons_ok _ _ _ _ _ _ (exec_recid n M calls m)). destruct (D (zero_recid m) i ltac:(rewrite id_kept; exact Ei) I) as [D1 _].
  assert (X : exec n (util_ctx M calls) (zero_recid m) (call_s drv msg) = Ok (set_scal m' "recid" (LInt U32, VI U32 v), None)).
  { unfold call_s. cbn [exec exec_expr util_ctx c_calls]. rewrite CF, RF. cbn [bind assign path]. rewrite SC. cbn [to_obj to_int bind].
    rewrite (conv_small U32 v eq_refl V). reflexivity. }
  rewrite (exec_cons_ok _ _ _ _ _ _ (eq_trans (D1 msg IM RM EI) X)).
  exact (exec_ret n M calls (set_scal m' "recid" (LInt U32, VI U32 v)) (LInt U32, VI U32 v) L2 eq_refl).
Qed.

(** ** Linked with the driver *)

Lemma unpack_name_inj : forall drv a b, unpack_name drv a = unpack_name drv b -> g_name a = g_name b.
Proof.
  intros drv a b E. unfold unpack_name in E. change ("Unpack_" ++ ?x) with (String "U" (String "n" (String "p" (String "a" (String "c" (String "k" (String "_" x))))))) in E.
  injection E as E. apply app_tail_inj in E. exact E.
Qed.
Lemma find_message : forall e msg, NoDup (map g_name (d_msgs (e_db e))) -> In msg (d_msgs (e_db e)) ->
  find (is_message (unpack_name (e_drv e) msg) e) (d_msgs (e_db e)) = Some msg.
Proof.
  intros e msg N I. destruct (find (is_message (unpack_name (e_drv e) msg) e) (d_msgs (e_db e))) as [m'|] eqn:F.
  - apply find_some in F. destruct F as [I' E]. unfold is_message in E. apply String.eqb_eq in E. apply unpack_name_inj in E.
    f_equal. eapply nodup_inj; [exact N|exact I'|exact I|now symmetry].
  - exfalso. pose proof (find_none _ _ F msg I) as X. unfold is_message in X. now rewrite String.eqb_refl in X.
Qed.
Lemma same_args_self : forall msg, same_args msg (unpack_args msg) = true.
Proof. intros msg. unfold same_args, unpack_args. now rewrite !String.eqb_refl. Qed.
Lemma strip_app : forall p f, strip p (p ++ f) = Some f.
Proof. induction p as [|c p IH]; intros f; [now destruct f|]. cbn [String.append strip]. now rewrite Ascii.eqb_refl. Qed.

Lemma receive_linked : forall e who h c m msg m1, program e -> utility (e_drv e) (e_db e) who h c -> NoDup (map g_id (d_msgs (e_db e))) ->
  lookup "_id" (after_header (e_conf e) (e_h e)) = None -> lookup "recid" (after_header (e_conf e) (e_h e)) = None ->
  In msg (d_msgs (e_db e)) -> received who msg -> m_scal m "_id" = Some (LInt U32, VI U32 (g_id msg)) ->
  unpack e msg (inside (g_name msg) m) = Ok (m1, Some (VI U32 (g_id msg))) ->
  exists m2, receive e who c m = Ok (m2, Some (VI U32 (g_id msg))) /\
    (forall f, m_scal m2 (sub_path (g_name msg) f) = m_scal m1 ("_m->" ++ f)) /\
    (forall p, p <> "recid" -> strip ("_m->" ++ g_name msg ++ ".") p = None -> m_scal m2 p = m_scal m p) /\
    m_arr m2 = m_arr m.
Proof.
  intros e who h c m msg m1 PR U N L1 L2 IM RM Ei UN.
  pose proof (dr_names _ _ _ _ _ (pr_driver e PR)) as NN.
  pose proof (proj2 (proj2 (ut_msgs _ _ _ _ _ U msg IM))) as RG.
  exists (set_scal (back (g_name msg) (zero_recid m) m1) "recid" (LInt U32, VI U32 (g_id msg))). split; [|split; [|split]].
  - unfold receive. eapply receive_mapped; [exact U|exact N|exact IM|exact RM|exact L1|exact L2|exact Ei|exact RG|reflexivity| | |exact RG|reflexivity].
    + unfold unpack_calls. rewrite (find_message e msg NN IM). reflexivity.
    + cbv beta. rewrite same_args_self. change (inside (g_name msg) (zero_recid m)) with (inside (g_name msg) m). rewrite UN. cbn [bind snd fst to_obj to_int].
      now rewrite (conv_small U32 (g_id msg) eq_refl RG).
  - intros f. unfold sub_path.
    assert (X : strip ("_m->" ++ g_name msg ++ ".") ("_m->" ++ g_name msg ++ "." ++ f) = Some f).
    { replace ("_m->" ++ g_name msg ++ "." ++ f) with (("_m->" ++ g_name msg ++ ".") ++ f) by (rewrite !app_assoc; reflexivity). apply strip_app. }
    transitivity (match strip ("_m->" ++ g_name msg ++ ".") ("_m->" ++ g_name msg ++ "." ++ f) with
      Some f => m_scal m1 ("_m->" ++ f) | None => m_scal (zero_recid m) ("_m->" ++ g_name msg ++ "." ++ f) end); [reflexivity|]. now rewrite X.
  - intros p NP ST. assert (NE : String.eqb p "recid" = false) by now apply String.eqb_neq.
    transitivity (if String.eqb p "recid" then Some (LInt U32, VI U32 (g_id msg)) else match strip ("_m->" ++ g_name msg ++ ".") p with
      Some f => m_scal m1 ("_m->" ++ f) | None => if String.eqb p "recid" then Some (LInt U32, VI U32 0) else m_scal m p end); [reflexivity|]. now rewrite NE, ST.
  - reflexivity.
Qed.

(** ** The header *)

Definition group_toks (d k : string) (l : list message) : list tok :=
  if nonempty l then ([TId "typedef"; TId "struct"; TP PLbrace] ++ List.concat (map toks_of (map slot l)) ++ [TP PRbrace; TId (d ++ "_" ++ k ++ "_t"); TP PSemi])%list else [].

Lemma slot_lex : forall m, is_ident (g_name m) = true -> lex ("  " ++ g_name m ++ "_t " ++ g_name m ++ ";") = toks_of (slot m).
Proof.
  intros m I. assert (I2 : is_ident (g_name m ++ "_t") = true) by (apply ident_prefix; auto).
  replace ("  " ++ g_name m ++ "_t " ++ g_name m ++ ";") with ("  " ++ ((g_name m ++ "_t") ++ (" " ++ (g_name m ++ (";" ++ ""))))) by (rewrite !app_assoc; reflexivity).
  unfold lex. lexrun ltac:(rewrite lex_ident' by auto). reflexivity.
Qed.
Lemma end_lex : forall d k, is_ident d = true -> all_chars is_idchar k = true -> lex ("} " ++ d ++ "_" ++ k ++ "_t;") = [TP PRbrace; TId (d ++ "_" ++ k ++ "_t"); TP PSemi].
Proof.
  intros d k I K. assert (I2 : is_ident (d ++ "_" ++ k ++ "_t") = true) by (apply ident_prefix; [exact I|]; rewrite !all_chars_app, K; reflexivity).
  replace ("} " ++ d ++ "_" ++ k ++ "_t;") with ("} " ++ ((d ++ "_" ++ k ++ "_t") ++ (";" ++ ""))) by (rewrite !app_assoc; reflexivity).
  unfold lex. lexrun ltac:(rewrite lex_ident' by auto). reflexivity.
Qed.

Definition group_text (d kind KIND : string) (l : list message) : list string :=
    if nonempty l then
      ([L ("typedef struct" ++ nl ++ "{")]
         ++ map (fun m => L ("  " ++ g_name m ++ "_t " ++ g_name m ++ ";")) l
         ++ [L ("} " ++ d ++ "_" ++ kind ++ "_t;"); nls 1])%list
    else [L ("// There is no any " ++ KIND ++ " mapped massage."); nls 1].

Lemma group_yp : forall M d k K l, is_ident d = true -> (String.length d <= 2000)%nat -> (forall m, In m l -> umsg_ok m) -> (k, K) = ("rx", "RX") \/ (k, K) = ("tx", "TX") ->
  ypart M (group_text d k K l) (group_toks d k l).
Proof.
  intros M d k K l I LD O KK. unfold group_text, group_toks. pose proof (no_nl_ident' _ I) as ND.
  assert (KC : all_chars is_idchar k = true /\ (String.length k <= 10)%nat /\ no_nl k = true) by (destruct KK as [E|E]; assert (k = fst (k, K)) as -> by reflexivity; rewrite E; cbn; auto with arith).
  destruct KC as (KC & KL & KN).
  destruct (nonempty l).
  - apply yp_app.
    { exists ["typedef struct"; "{"]. split.
      - pose proof (part_full (L ("typedef struct" ++ nl ++ "{")) (L_full _)) as P. rewrite lines_L2 in P by (reflexivity || discriminate || (cbn; lia)). exact P.
      - apply (yields_app M ["typedef struct"] ["{"] [TId "typedef"; TId "struct"] [TP PLbrace]).
        + exact (yields_line M "typedef struct" eq_refl).
        + exact (yields_line M "{" eq_refl). }
    apply yp_app.
    + induction l as [|m l IH]; [apply yp_nil|]. cbn [map List.concat]. apply yp_cons; [|apply IH; intros x X; apply O; now right].
      destruct (O m (or_introl eq_refl)) as (IN & LN & _). rewrite <- slot_lex by exact IN. apply yp_line; [|reflexivity].
      apply raw_intro; [rewrite !no_nl_app, (no_nl_ident' _ IN); reflexivity|rewrite !app_len; cbn [String.length]; lia].
    + rewrite <- (List.app_nil_r [TP PRbrace; _; _]). apply yp_cons; [|apply yp_nls]. rewrite <- end_lex by auto. apply yp_line; [|reflexivity].
      apply raw_intro; [rewrite !no_nl_app, ND, KN; reflexivity|rewrite !app_len; cbn [String.length]; lia].
  - apply (yp_cons M _ _ [] []); [|apply yp_nls].
    assert (KS : K = "RX" \/ K = "TX") by (destruct KK as [E|E]; [left|right]; congruence).
    destruct KS as [-> | ->].
    + apply (yp_line M "// There is no any RX mapped massage."); [apply raw_intro; [reflexivity|cbn; lia]|reflexivity].
    + apply (yp_line M "// There is no any TX mapped massage."); [apply raw_intro; [reflexivity|cbn; lia]|reflexivity].
Qed.

Lemma cpp_yp : forall M, (exists t, ypart M [append_s cpp_open] t) /\ (exists t, ypart M [append_s cpp_close] t).
Proof.
  intros M. split.
  - eexists. exists ("#ifdef __cplusplus" :: [("extern " ++ dq ++ "C" ++ dq ++ " {")%string] ++ ["#endif"])%list. split.
    + pose proof (part_full (append_s cpp_open) (append_s_full _)) as P. exact P.
    + apply (yields_if M "__cplusplus"); [reflexivity|reflexivity|]. apply yields_line. reflexivity.
  - eexists. exists ("#ifdef __cplusplus" :: ["}"] ++ ["#endif"])%list. split.
    + pose proof (part_full (append_s cpp_close) (append_s_full _)) as P. exact P.
    + apply (yields_if M "__cplusplus"); [reflexivity|reflexivity|]. apply yields_line. reflexivity.
Qed.

Definition header_tail (g : gendesc) (rx tx : list message) : list string :=
  let d := n_drv g in
  ((if nonempty rx
         then [L ("uint32_t " ++ d ++ "_Receive(" ++ d
                    ++ "_rx_t* m, const uint8_t* d, uint32_t msgid, uint8_t dlc);"); nls 1]
         else [])
     ++ (if nonempty rx || nonempty tx then
           [L ("#ifdef __DEF_" ++ n_DRV g ++ "__"); nls 1]
             ++ (if nonempty rx then [L ("extern " ++ d ++ "_rx_t " ++ d ++ "_rx;"); nls 1] else [])
             ++ (if nonempty tx then [L ("extern " ++ d ++ "_tx_t " ++ d ++ "_tx;"); nls 1] else [])
             ++ [L ("#endif // __DEF_" ++ n_DRV g ++ "__"); nls 1]
         else [])
     ++ [append_s cpp_close])%list.
Definition yp_some (M : list (string * macro)) (ps : list string) : Prop := exists t, ypart M ps t.
Lemma ys_cons : forall M p b, yp_some M [p] -> yp_some M b -> yp_some M (p :: b).
Proof. intros M p b [t T] [u U]. exists (t ++ u)%list. now apply yp_cons. Qed.
Lemma ys_app : forall M a b, yp_some M a -> yp_some M b -> yp_some M (a ++ b).
Proof. intros M a b [t T] [u U]. exists (t ++ u)%list. now apply yp_app. Qed.
Lemma ys_nil : forall M, yp_some M [].
Proof. intros M. exists []. apply yp_nil. Qed.
Lemma ys_nls : forall M n, yp_some M [nls n].
Proof. intros M n. eexists. apply yp_nls. Qed.
Lemma ys_line : forall M s, raw_ok s -> directive s = None -> yp_some M [L s].
Proof. intros M s R D. eexists. now apply yp_line. Qed.
Lemma ys_skip : forall M s, raw_ok s -> skip_dir s -> yp_some M [L s].
Proof. intros M s R D. eexists. now apply yp_skip. Qed.

Lemma header_parts : forall M g drv who rx tx, ugen_ok g drv who -> is_ident drv = true -> (String.length drv <= 900)%nat ->
  is_ident (util_name drv who) = true -> (String.length (util_name drv who) <= 2000)%nat ->
  exists a b, util_header g (str_tolower drv) rx tx = (a ++ group_text (util_name drv who) "rx" "RX" rx ++ group_text (util_name drv who) "tx" "TX" tx ++ b)%list /\
    yp_some M a /\ yp_some M b.
Proof.
  intros M g drv who rx tx G ID LD IU LU. exists [n_cominfo g; n_drvinfo g; L "#pragma once"; nls 1; append_s cpp_open; nls 1;
    L ("#include " ++ dq ++ "dbccodeconf.h" ++ dq); nls 1; L ("#include " ++ dq ++ str_tolower drv ++ ".h" ++ dq); nls 1], (header_tail g rx tx).
  assert (EQ : n_drv g = util_name drv who) by apply G.
  split; [|split].
  - unfold util_header, header_tail, group_text. rewrite EQ. reflexivity.
  - assert (NI : no_nl (str_tolower drv) = true) by (apply no_nl_ident', lower_ident, ID).
    pose proof (lower_len drv) as LL.
    apply ys_cons; [eexists; apply yp_info, G|]. apply ys_cons; [eexists; apply yp_info, G|].
    apply ys_cons. { apply ys_skip; [apply raw_intro; [reflexivity|cbn; lia]|]. exists "pragma", "once". split; reflexivity. }
    apply ys_cons; [apply ys_nls|]. apply ys_cons; [apply cpp_yp|]. apply ys_cons; [apply ys_nls|].
    apply ys_cons. { apply ys_skip; [apply raw_intro; [reflexivity|cbn; lia]|apply skip_include]. }
    apply ys_cons; [apply ys_nls|].
    apply ys_cons. { apply ys_skip; [|apply skip_include]. apply raw_intro; [rewrite !no_nl_app, NI; reflexivity|rewrite !app_len; change (String.length dq) with 1%nat; cbn [String.length]; lia]. }
    apply ys_nls.
  - unfold header_tail. rewrite EQ. set (d := util_name drv who) in *. pose proof (no_nl_ident' _ IU) as ND. destruct (ug_DRV _ _ _ G) as [GI GL].
    pose proof (no_nl_ident' _ GI) as NG.
    apply ys_app; [|apply ys_app; [|apply cpp_yp]].
    + destruct (nonempty rx); [|apply ys_nil]. apply ys_cons; [|apply ys_nls]. apply ys_line; [|reflexivity].
      apply raw_intro; [rewrite !no_nl_app, ND; reflexivity|rewrite !app_len; cbn [String.length]; lia].
    + destruct (nonempty rx || nonempty tx); [|apply ys_nil].
      assert (Y : yp_some M ((nls 1 :: (if nonempty rx then [L ("extern " ++ d ++ "_rx_t " ++ d ++ "_rx;"); nls 1] else [])
             ++ (if nonempty tx then [L ("extern " ++ d ++ "_tx_t " ++ d ++ "_tx;"); nls 1] else [])))%list).
      { apply ys_cons; [apply ys_nls|]. apply ys_app.
        - destruct (nonempty rx); [|apply ys_nil]. apply ys_cons; [|apply ys_nls]. apply ys_line; [|reflexivity].
          apply raw_intro; [rewrite !no_nl_app, ND; reflexivity|rewrite !app_len; cbn [String.length]; lia].
        - destruct (nonempty tx); [|apply ys_nil]. apply ys_cons; [|apply ys_nls]. apply ys_line; [|reflexivity].
          apply raw_intro; [rewrite !no_nl_app, ND; reflexivity|rewrite !app_len; cbn [String.length]; lia]. }
      destruct Y as [t Y].
      assert (IDEF : is_ident ("__DEF_" ++ n_DRV g ++ "__") = true).
      { apply (ident_prefix "__DEF_"); [reflexivity|]. rewrite all_chars_app, (ident_chars _ GI). reflexivity. }
      pose proof (yp_if M ("__DEF_" ++ n_DRV g ++ "__") _ ("#endif // __DEF_" ++ n_DRV g ++ "__") t IDEF
        ltac:(apply raw_intro; [rewrite !no_nl_app, NG; reflexivity|rewrite !app_len; cbn [String.length]; lia])
        ltac:(apply raw_intro; [rewrite !no_nl_app, NG; reflexivity|rewrite !app_len; cbn [String.length]; lia]) eq_refl Y) as YI.
      pose proof (ys_app M _ _ (ex_intro _ _ YI) (ys_nls M 1)) as YZ. cbn [List.app] in *. rewrite <- !List.app_assoc in YZ. cbn [List.app] in YZ. exact YZ.
Qed.

Lemma header_declares : forall drv d who h c M, utility drv d who h c -> clean h -> exists rx tx,
  Permutation rx (rx_of d who) /\ StronglySorted (fun a b => (g_id a <= g_id b)%Z) rx /\
  Permutation tx (tx_of d who) /\ StronglySorted (fun a b => (g_id a <= g_id b)%Z) tx /\
  (rx <> [] -> declares (text_toks M h) (util_name drv who ++ "_rx_t") (map slot rx)) /\
  (tx <> [] -> declares (text_toks M h) (util_name drv who ++ "_tx_t") (map slot tx)).
Proof.
  intros drv d who h c M U CL. destruct (utility_facts _ _ _ _ _ U) as (g & rx & tx & F). exists rx, tx.
  destruct (uf_rx _ _ _ _ _ _ _ _ F) as [P1 S1]. destruct (uf_tx _ _ _ _ _ _ _ _ F) as [P2 S2]. destruct (facts_ok _ _ _ _ _ _ _ _ U F) as [O1 O2].
  destruct (ut_drv _ _ _ _ _ U) as [ID LD]. destruct (ut_name _ _ _ _ _ U) as [IU LU].
  destruct (header_parts M g drv who rx tx (uf_gen _ _ _ _ _ _ _ _ F) ID LD IU LU) as (a & b & EH & [ta YA] & [tb YB]).
  repeat (split; [assumption|]).
  assert (T : text_toks M h = (ta ++ group_toks (util_name drv who) "rx" rx ++ group_toks (util_name drv who) "tx" tx ++ tb)%list).
  { pose proof (yp_app M _ _ _ _ YA (yp_app M _ _ _ _ (group_yp M _ "rx" "RX" rx IU LU O1 (or_introl eq_refl))
      (yp_app M _ _ _ _ (group_yp M _ "tx" "TX" tx IU LU O2 (or_intror eq_refl)) YB))) as (ls & PT & [_ Y]).
    unfold text_toks. rewrite (splice_clean h CL). rewrite (uf_h _ _ _ _ _ _ _ _ F), EH, (part_lines _ _ PT). destruct (Y [] [] eq_refl) as (o & R & TO).
    unfold pp_run. assert (RR : fold_left pp_line ls (mkst M [] []) = mkst M [] o) by exact R. unfold mkst in RR at 1. rewrite RR. cbn [mkst pp_out]. exact TO. }
  rewrite T. split; intros NE.
  - unfold group_toks at 1. destruct rx as [|x rx]; [congruence|]. cbn [nonempty].
    exists ta, (group_toks (util_name drv who) "tx" tx ++ tb)%list, (List.concat (map toks_of (map slot (x :: rx)))). split; [|apply parse_toks].
    rewrite <- !List.app_assoc. reflexivity.
  - unfold group_toks at 2. destruct tx as [|x tx]; [congruence|]. cbn [nonempty].
    exists (ta ++ group_toks (util_name drv who) "rx" rx)%list, tb, (List.concat (map toks_of (map slot (x :: tx)))). split; [|apply parse_toks].
    rewrite <- !List.app_assoc. reflexivity.
Qed.
