(** The guard of the utility source, the prototypes of the core header and the calls of Receive. *)

From Coq Require Import ZArith NArith List String Ascii Bool Lia ZifyBool Permutation Sorted.
From Verif Require Import Base Dbl CSyntax CSem CRun Types Formatter SigPrinter Writer Settings MainGen UtilGen App CodecSpec MsgSpec
  LexLemmas BitLemmas CSemLemmas Chunks PPProof BodyLemmas UnpackBody UnpackFun PackProof PackBody PackFun SourceFun DriverSpec DriverProof HeaderSpec HeaderProof HeaderRun HeaderTables
  CodecEnv StructSpec StructProof UtilSpec UtilTree UtilProof UtilThms GuardSpec HeaderVer GuardProof.
Import ListNotations.
Open Scope string_scope.

(** ** Calm pieces *)

Definition qpart (ps : list string) : Prop := exists ls, part ps ls /\ Forall calm ls.
Lemma qp_nil : qpart [].
Proof. exists []. split; [apply part_nil|constructor]. Qed.
Lemma qp_app : forall a b, qpart a -> qpart b -> qpart (a ++ b).
Proof. intros a b (la & A & CA) (lb & B & CB). exists (la ++ lb)%list. split; [now apply part_app|now apply Forall_app]. Qed.
Lemma qp_cons : forall p b, qpart [p] -> qpart b -> qpart (p :: b).
Proof. intros p b. apply (qp_app [p] b). Qed.
Lemma qp_raw : forall s, raw_ok s -> calm s -> qpart [L s].
Proof. intros s R C. exists [s]. split; [now apply part_raw|now constructor]. Qed.
Lemma qp_nls : forall n, qpart [nls n].
Proof.
  intros n. exists (repeat "" n). split.
  - induction n as [|n IH]; intros r; [reflexivity|]. specialize (IH r). cbn [sconcat] in *. rewrite app_nil_r in *.
    change (nls (S n)) with (nl ++ nls n). rewrite app_assoc. change (lines (nl ++ nls n ++ r)) with ("" :: lines (nls n ++ r)). rewrite IH. reflexivity.
  - apply Forall_forall. intros x I. apply repeat_spec in I. subst x. exact Logic.I.
Qed.
Lemma qp_join : forall a b, qpart [a] -> qpart [b] -> qpart [(a ++ b)%string].
Proof.
  intros a b A B. destruct (qp_cons a [b] A B) as (ls & P & C). exists ls. split; [|exact C].
  intros r. specialize (P r). cbn [sconcat] in *. rewrite !app_nil_r in *. exact P.
Qed.
Lemma qp_empty : qpart [""].
Proof. exists []. split; [intros r; reflexivity|constructor]. Qed.
Lemma qp_code : forall i s, no_nl s = true -> qpart [print_code (S i) s].
Proof.
  intros i s N. unfold print_code.
  assert (NN : no_nl (repeat_char (S i) " " ++ s) = true).
  { rewrite no_nl_app, N, andb_true_r. clear. induction (S i) as [|n IH]; [reflexivity|]. cbn [repeat_char]. unfold no_nl in *. cbn [has_char].
    destruct (has_char NL (repeat_char n " ")); [discriminate|reflexivity]. }
  exists [(repeat_char (S i) " " ++ s)%string]. split; [|repeat constructor].
  intros r. cbn [sconcat]. rewrite app_nil_r. rewrite <- app_assoc. rewrite app_assoc. change (nl ++ r) with (String NL r). now rewrite lines_line.
Qed.

(** ** The search tree *)

Section Tree.
Variable (drv : string) (l : list message).
Hypothesis Oks : forall m, In m l -> umsg_ok m.
Hypothesis Dlen : (String.length drv <= 900)%nat.
Hypothesis Dchars : all_chars is_idchar drv = true.

Definition cond_in (c : string) : Prop := (exists m, In m l /\ c = id_eq_text m) \/ (exists a b, In a l /\ In b l /\ c = id_range_text a b).
Definition body_in (b : string) : Prop := exists m, In m l /\ b = call_text drv m.
Fixpoint tree_in (t : ctree) : Prop :=
  match t with
  | CCond c h lw => cond_in c /\ match h with Some t' => tree_in t' | None => True end /\ match lw with Some t' => tree_in t' | None => True end
  | CExpress c b => cond_in c /\ body_in b
  | CSingle b => body_in b
  end.

Lemma fill_in : forall fuel lo hi st t, (lo < hi <= List.length l)%nat -> fill_tree fuel drv l lo hi st = Some t -> tree_in t.
Proof.
  clear Oks Dlen Dchars. induction fuel as [|f IH]; intros lo hi st t LH E; [discriminate|]. cbn [fill_tree] in E.
  assert (I : forall j, (j < List.length l)%nat -> In (nth j l no_message) l) by (intros; now apply nth_In).
  destruct (hi <? 1)%nat; [discriminate|].
  destruct (negb st && (hi =? 1)%nat).
  { injection E as <-. cbn [tree_in]. split; [left; eexists; split; [|reflexivity]; apply I; lia|]. split; [|exact Logic.I]. eexists; split; [|reflexivity]; apply I; lia. }
  destruct (Nat.ltb_spec 1 (hi - lo)) as [S1|S1].
  - assert (HALF : (1 <= Nat.div2 (hi - lo) /\ Nat.div2 (hi - lo) < hi - lo)%nat).
    { pose proof (Nat.div2_odd (hi - lo)) as O. pose proof (Nat.lt_div2 (hi - lo) ltac:(lia)). destruct (Nat.odd (hi - lo)); cbn [Nat.b2n] in O; lia. }
    set (h := Nat.div2 (hi - lo)) in *. clearbody h. injection E as <-. cbn [tree_in]. split.
    + destruct (1 <? h)%nat; [right|left].
      * exists (nth lo l no_message), (nth (lo + h) l no_message). repeat split; apply I; lia.
      * eexists; split; [|reflexivity]; apply I; lia.
    + split.
      * destruct (fill_tree f drv l lo (lo + h) true) as [t'|] eqn:E1; [|exact Logic.I]. apply (IH lo (lo + h)%nat true t'); [lia|exact E1].
      * destruct (fill_tree f drv l (lo + h) hi true) as [t'|] eqn:E1; [|exact Logic.I]. apply (IH (lo + h)%nat hi true t'); [lia|exact E1].
  - injection E as <-. cbn [tree_in]. split; [left|]; (eexists; split; [|reflexivity]; apply I; lia).
Qed.

Definition calls_ok (ts : list tok) : Prop := forall f, In f (call_names ts) -> f = "if" \/ exists m, In m l /\ f = unpack_name drv m.
Definition no_par (ts : list tok) : Prop := match ts with TP PLpar :: _ => False | _ => True end.
Lemma call_names_app : forall a b, no_par b -> call_names (a ++ b) = (call_names a ++ call_names b)%list.
Proof.
  induction a as [|t a IH]; intros b N; [reflexivity|]. cbn [List.app].
  destruct t as [x| | | |]; try exact (IH b N).
  cbn [call_names]. rewrite IH by exact N. destruct a as [|u a]; cbn [List.app].
  - destruct b as [|v b]; [reflexivity|]. destruct v as [| | |p|]; try reflexivity. destruct p; try reflexivity. contradiction.
  - destruct u as [| | |p|]; try reflexivity. destruct p; reflexivity.
Qed.
Lemma calls_app : forall a b, no_par b -> calls_ok a -> calls_ok b -> calls_ok (a ++ b).
Proof. intros a b N A B f I. rewrite call_names_app in I by exact N. apply in_app_iff in I. destruct I; auto. Qed.

(** what is known of a piece of code *)
Definition piece (i : nat) (s : string) (ts : list tok) : Prop := no_par ts /\ calls_ok ts /\ qpart [s] /\ forall M, ypart M [s] ts.
Lemma piece_join : forall i a b ta tb, piece i a ta -> piece i b tb -> ta <> [] -> piece i (a ++ b) (ta ++ tb).
Proof.
  intros i a b ta tb (A1 & A2 & A3 & A4) (B1 & B2 & B3 & B4) NE. split; [|split; [|split]].
  - destruct ta as [|t ta]; [congruence|]. exact A1.
  - now apply calls_app.
  - now apply qp_join.
  - intros M. apply yp_join; auto.
Qed.
Lemma piece_code : forall i s, no_nl s = true -> no_par (lex s) -> calls_ok (lex s) -> piece i (print_code (S i) s) (lex s).
Proof. intros i s N A B. split; [exact A|]. split; [exact B|]. split; [now apply qp_code|]. intros M. now apply yp_code. Qed.

Lemma cond_toks : forall c, cond_in c -> exists e ts, cond_text c e /\ (forall r, lex_from LIdle (c ++ ")" ++ r) = (ts ++ lex_from LIdle (")" ++ r))%list) /\ call_names ts = [] /\
  forall r, call_names (ts ++ TP PRpar :: r) = call_names r.
Proof.
  intros c [(m & I & ->)|(a & b & IA & IB & ->)].
  - exists (eq_e m), (eq_toks m). split; [now apply eq_cond, Oks|]. split; [intros r; now apply eq_lex, Oks|]. split; reflexivity.
  - exists (rng_e a b), (rng_toks a b). split; [apply rng_cond; now apply Oks|]. split; [intros r; apply rng_lex; now apply Oks|]. split; reflexivity.
Qed.
Lemma if_piece : forall i c, cond_in c -> exists ts, ts <> [] /\ piece i (print_code (S i) (str_print ("if (" ++ c ++ ") {"))) ts.
Proof.
  intros i c C. destruct (cond_toks c C) as (e & ts & (L & N & _) & X & C1 & C2). exists ([TId "if"; TP PLpar] ++ ts ++ [TP PRpar; TP PLbrace])%list.
  split; [discriminate|]. split; [exact Logic.I|]. split; [|split].
  - intros f I. cbn [call_names List.app] in I. destruct I as [<-|I]; [now left|]. exfalso. change [TP PRpar; TP PLbrace] with (TP PRpar :: [TP PLbrace]) in I. rewrite C2 in I. exact I.
  - rewrite str_print_short by (rewrite !app_len; cbn [String.length]; lia). apply qp_code. rewrite !no_nl_app, N. reflexivity.
  - intros M. now apply if_line.
Qed.
Lemma else_if_piece : forall i c, cond_in c -> exists ts, ts <> [] /\ piece i (print_code (S i) (str_print ("} else if (" ++ c ++ ") {"))) ts.
Proof.
  intros i c C. destruct (cond_toks c C) as (e & ts & (L & N & _) & X & C1 & C2). exists ([TP PRbrace; TId "else"; TId "if"; TP PLpar] ++ ts ++ [TP PRpar; TP PLbrace])%list.
  split; [discriminate|]. split; [exact Logic.I|]. split; [|split].
  - intros f I. cbn [call_names List.app] in I. destruct I as [<-|I]; [now left|]. exfalso. change [TP PRpar; TP PLbrace] with (TP PRpar :: [TP PLbrace]) in I. rewrite C2 in I. exact I.
  - rewrite str_print_short by (rewrite !app_len; cbn [String.length]; lia). apply qp_code. rewrite !no_nl_app, N. reflexivity.
  - intros M. now apply else_if_line.
Qed.
Lemma body_piece : forall i b, body_in b -> exists ts, ts <> [] /\ piece i (print_code (S i) (str_print b)) ts.
Proof.
  intros i b (m & I & ->). pose proof (Oks m I) as U. exists (call_toks drv m). split; [discriminate|]. split; [exact Logic.I|]. split; [|split].
  - intros f [<-|[]]. right. eauto.
  - assert (S : str_print (call_text drv m) = call_text drv m).
    { apply str_print_short. rewrite call_str by assumption. destruct U as (_ & N & _). rewrite !app_len. cbn [String.length]. lia. }
    rewrite S. apply qp_code. rewrite call_str by assumption. destruct U as (N & _ & _).
    rewrite !no_nl_app, (no_nl_ident _ (ident_chars _ N)), (no_nl_ident _ Dchars). reflexivity.
  - intros M. now apply body_codes.
Qed.
Lemma brace_piece : forall i s, s = "}" \/ s = "} else {" -> exists ts, ts <> [] /\ piece i (print_code (S i) s) ts.
Proof. intros i s H. exists (lex s). destruct H as [-> | ->]; (split; [discriminate|]; apply piece_code; [reflexivity|exact Logic.I|intros f []]). Qed.

Lemma tree_piece : forall t i, tree_in t -> exists ts, ts <> [] /\ piece i (write_code (S i) t) ts.
Proof.
  fix IH 1. intros t i T. destruct t as [c h lw|c b|b]; cbn [tree_in] in T.
  - destruct T as (C & TH & TL). destruct (if_piece i c C) as (t1 & N1 & P1). cbn [write_code].
    assert (SUB : exists t2, (match h with Some t' => write_code (S (S i)) t' | None => "" end = "" /\ h = None) \/
       (t2 <> [] /\ piece i (match h with Some t' => write_code (S (S i)) t' | None => "" end) t2)).
    { destruct h as [t'|]; [|exists []; now left]. destruct (IH t' (S i) TH) as (t2 & N2 & P2). exists t2. right. split; [exact N2|exact P2]. }
    assert (REST : exists t3, t3 <> [] /\ piece i (match lw with
           | Some t' => print_code (S i) (match t' with CExpress c' _ => str_print ("} else if (" ++ c' ++ ") {") | _ => "} else {" end) ++ write_code (S (S i)) t' ++ print_code (S i) "}"
           | None => print_code (S i) "}" end) t3).
    { destruct (brace_piece i "}" (or_introl eq_refl)) as (t9 & N9 & P9).
      destruct lw as [t'|]; [|eauto]. destruct (IH t' (S i) TL) as (t4 & N4 & P4).
      assert (EL : exists t5, t5 <> [] /\ piece i (print_code (S i) (match t' with CExpress c' _ => str_print ("} else if (" ++ c' ++ ") {") | _ => "} else {" end)) t5).
      { destruct t' as [c' h' l'|c' b'|b']; [apply brace_piece; now right|apply else_if_piece; apply TL|apply brace_piece; now right]. }
      destruct EL as (t5 & N5 & P5). exists (t5 ++ t4 ++ t9)%list. split; [destruct t5; [congruence|discriminate]|].
      apply piece_join; [exact P5| |exact N5]. apply piece_join; [exact P4|exact P9|exact N4]. }
    destruct REST as (t3 & N3 & P3). destruct SUB as (t2 & [[E2 EH]|[N2 P2]]).
    + rewrite E2. cbn [append]. exists (t1 ++ t3)%list. split; [destruct t1; [congruence|discriminate]|]. now apply piece_join.
    + exists (t1 ++ t2 ++ t3)%list. split; [destruct t1; [congruence|discriminate]|]. apply piece_join; [exact P1| |exact N1]. now apply piece_join.
  - destruct T as [_ B]. cbn [write_code]. now apply body_piece.
  - cbn [write_code]. now apply body_piece.
Qed.
End Tree.

Lemma yp_unique : forall M ps a b, ypart M ps a -> ypart M ps b -> a = b.
Proof.
  intros M ps a b (la & PA & [_ YA]) (lb & PB & [_ YB]). assert (E : la = lb) by (rewrite <- (part_lines _ _ PA); apply (part_lines _ _ PB)). subst lb.
  destruct (YA [] [] eq_refl) as (o1 & R1 & T1). destruct (YB [] [] eq_refl) as (o2 & R2 & T2).
  rewrite R1 in R2. apply (f_equal pp_out) in R2. cbn [mkst pp_out] in R2. subst o2. rewrite T1 in T2. exact T2.
Qed.

(** ** The source *)

Section Source.
Variable (M : list (string * macro)) (g : gendesc) (drv : string) (who : option string).
Hypothesis G : ugen_ok g drv who.
Hypothesis IU : is_ident (util_name drv who) = true.
Hypothesis LU : (String.length (util_name drv who) <= 2000)%nat.
Hypothesis Dlen : (String.length drv <= 900)%nat.
Hypothesis Dchars : all_chars is_idchar drv = true.

Lemma tail_calm : forall rx tx, (forall m, In m rx -> umsg_ok m) ->
  qpart (nls 1 :: source_globs g rx tx ++ (if nonempty rx then receive_text g drv rx else [])).
Proof.
  intros rx tx O. destruct G as [GD [GI GL] GC GF _]. unfold source_globs, receive_text. rewrite GD. set (d := util_name drv who) in *.
  pose proof (no_nl_ident' _ GI) as NG. pose proof (no_nl_ident' _ IU) as ND. pose proof LU as LD. fold d in ND, LD.
  assert (DI : forall r, calm (d ++ r)) by (intros r; apply calm_none, directive_ident_line; exact IU).
  apply qp_cons; [apply qp_nls|]. apply qp_app.
  - destruct (nonempty rx || nonempty tx); [|apply qp_nil]. apply qp_cons.
    { apply qp_raw; [apply raw_intro; [rewrite !no_nl_app, NG; reflexivity|rewrite !app_len; cbn [String.length]; lia]|].
      change ("#ifdef __DEF_" ++ n_DRV g ++ "__") with ("#" ++ "ifdef" ++ " " ++ ("__DEF_" ++ n_DRV g ++ "__")). apply calm_word; [reflexivity| | |]; discriminate. }
    apply qp_cons; [apply qp_nls|]. apply qp_app; [|apply qp_app].
    + destruct (nonempty rx); [|apply qp_nil]. apply qp_cons; [|apply qp_nls]. apply qp_raw; [|apply DI].
      apply raw_intro; [rewrite !no_nl_app, ND; reflexivity|rewrite !app_len; cbn [String.length]; lia].
    + destruct (nonempty tx); [|apply qp_nil]. apply qp_cons; [|apply qp_nls]. apply qp_raw; [|apply DI].
      apply raw_intro; [rewrite !no_nl_app, ND; reflexivity|rewrite !app_len; cbn [String.length]; lia].
    + apply qp_cons; [|apply qp_nls]. apply qp_raw; [apply raw_intro; [rewrite !no_nl_app, NG; reflexivity|rewrite !app_len; cbn [String.length]; lia]|].
      apply (calm_end (" // __DEF_" ++ n_DRV g ++ "__")). right. eexists. reflexivity.
  - destruct rx as [|x rx]; [apply qp_nil|]. cbn [nonempty].
    set (l := x :: rx) in *. 
    apply qp_cons. { apply qp_raw; [|apply calm_none; reflexivity]. apply raw_intro; [rewrite !no_nl_app, ND; reflexivity|rewrite !app_len; cbn [String.length]; lia]. }
    apply qp_cons; [apply qp_raw; [apply raw_intro; [reflexivity|cbn; lia]|exact Logic.I]|].
    apply qp_cons; [apply qp_raw; [apply raw_intro; [reflexivity|cbn; lia]|exact Logic.I]|].
    apply qp_cons.
    { destruct (fill_tree (S (List.length l)) drv l 0 (List.length l) false) as [t|] eqn:E; [|exact (qp_nls 1)].
      rewrite append_write. pose proof (fill_in drv l (S (List.length l)) 0 (List.length l) false t ltac:(subst l; cbn [List.length]; lia) E) as TI.
      destruct (tree_piece drv l O Dlen Dchars t 0 TI) as (ts & _ & _ & _ & Q & _). exact Q. }
    apply qp_cons; [apply qp_nls|].
    apply qp_cons; [apply qp_raw; [apply raw_intro; [reflexivity|cbn; lia]|exact Logic.I]|].
    apply qp_cons; [apply qp_raw; [apply raw_intro; [reflexivity|cbn; lia]|exact Logic.I]|]. apply qp_nls.
Qed.

Lemma util_guard_quiet : forall uh hi low rx tx c, (forall m, In m rx -> umsg_ok m) -> no_nl uh = true -> (String.length uh <= 3000)%nat -> (0 <= hi < 2 ^ 32)%Z -> (0 <= low < 2 ^ 32)%Z ->
  is_ident (n_verhi g) = true -> is_ident (n_verlow g) = true -> is_typename (n_verhi g) = false -> is_typename (n_verlow g) = false -> const_macro M (n_verhi g) hi -> const_macro M (n_verlow g) low ->
  c = sconcat (util_source g uh drv hi low rx tx) -> errors M c = [].
Proof.
  intros uh hi low rx tx c O NU LH H1 H2 I1 I2 T1 T2 C1 C2 EC.
  destruct (tail_calm rx tx O) as (lt & PT & CT). destruct G as [GD [GI GL] [GC GC'] [GF GF'] (V1 & V2 & V3 & V4)].
  pose proof (pu_len hi ltac:(lia)) as P1. pose proof (pu_len low ltac:(lia)) as P2. pose proof (no_nl_ident' _ GI) as NG.
  assert (PP : part [n_cominfo g; n_drvinfo g; L ("#include " ++ dq ++ uh ++ dq); nls 1; L "// DBC file version"]
    (lines (n_cominfo g) ++ lines (n_drvinfo g) ++ [("#include " ++ dq ++ uh ++ dq)%string] ++ [""] ++ ["// DBC file version"])).
  { change [n_cominfo g; n_drvinfo g; L ("#include " ++ dq ++ uh ++ dq); nls 1; L "// DBC file version"] with
      ([n_cominfo g] ++ [n_drvinfo g] ++ [L ("#include " ++ dq ++ uh ++ dq)] ++ [L ""] ++ [L "// DBC file version"])%list.
    repeat apply part_app; try (now apply part_full); apply part_raw; apply raw_intro; try reflexivity; try (cbn; lia).
    - rewrite !no_nl_app, NU; reflexivity.
    - rewrite !app_len; change (String.length dq) with 1%nat; cbn [String.length]; lia. }
  set (E := ("The " ++ n_DRV g ++ " binutil source file has inconsistency with core dbc lib!")%string).
  assert (PG : part [L ("#if " ++ ver_cond (n_verhi g) (n_verlow g) hi low); L ("#error " ++ E); L "#endif"] ([("#if " ++ ver_cond (n_verhi g) (n_verlow g) hi low)%string] ++ [("#error " ++ E)%string] ++ ["#endif"])).
  { apply (part_app [_] _ [_; _]); [|apply (part_app [_] _ [_])]; apply part_raw; apply raw_intro; try reflexivity; try (cbn; lia).
    - unfold ver_cond. rewrite !no_nl_app, V1, V2, !pu_nonl. reflexivity.
    - unfold ver_cond. rewrite !app_len. cbn [String.length]. lia.
    - subst E. rewrite !no_nl_app, NG. reflexivity.
    - subst E. rewrite !app_len. cbn [String.length]. lia. }
  pose proof (part_lines _ _ (part_app _ _ _ _ PP (part_app _ _ _ _ PG PT))) as EL.
  assert (CL : lines c = ((lines (n_cominfo g) ++ lines (n_drvinfo g) ++ [("#include " ++ dq ++ uh ++ dq)%string] ++ [""] ++ ["// DBC file version"])
    ++ ("#if " ++ ver_cond (n_verhi g) (n_verlow g) hi low)%string :: ("#error " ++ E)%string :: "#endif" :: lt)%list).
  { subst c. refine (eq_trans _ EL). reflexivity. }
  unfold errors. rewrite CL. 
  assert (F1 : Forall (fun s => directive s = None) (lines (n_cominfo g))) by now apply comments_plain.
  assert (F2 : Forall (fun s => directive s = None) (lines (n_drvinfo g))) by now apply comments_plain.
  eapply (guard_quiet M _ (ver_cond (n_verhi g) (n_verlow g) hi low) E lt).
  - apply Forall_app. split; [eapply Forall_impl; [|exact F1]; intros a A; now apply calm_none|]. apply Forall_app. split; [eapply Forall_impl; [|exact F2]; intros a A; now apply calm_none|].
    constructor; [apply calm_include|]. repeat constructor.
  - exact CT.
  - rewrite !fold_left_app, !plain_run by auto. cbn [fold_left]. rewrite line_skip by apply skip_include. reflexivity.
  - do 2 eexists. split; reflexivity.
  - now apply cond_zero.
Qed.
End Source.

Lemma util_ver_names : forall drv who out a b hi low nc ni nf, let s := configure drv out a b hi low nc ni nf in
  n_verhi (st_g (util_settings drv who s)) = n_verhi (st_g s) /\ n_verlow (st_g (util_settings drv who s)) = n_verlow (st_g s).
Proof. intros. destruct who; split; reflexivity. Qed.

(** the utility header defines no macro *)
Lemma util_header_macros : forall drv d who h c M, utility drv d who h c -> after_header M h = M.
Proof.
  intros drv d who h c M U. destruct (utility_facts _ _ _ _ _ U) as (g & rx & tx & F).
  destruct (facts_ok _ _ _ _ _ _ _ _ U F) as [O1 O2]. destruct (ut_drv _ _ _ _ _ U) as [ID LD]. destruct (ut_name _ _ _ _ _ U) as [IU LU].
  destruct (header_parts M g drv who rx tx (uf_gen _ _ _ _ _ _ _ _ F) ID LD IU LU) as (a & b & EH & [ta YA] & [tb YB]).
  pose proof (yp_app M _ _ _ _ YA (yp_app M _ _ _ _ (group_yp M _ "rx" "RX" rx IU LU O1 (or_introl eq_refl))
      (yp_app M _ _ _ _ (group_yp M _ "tx" "TX" tx IU LU O2 (or_intror eq_refl)) YB))) as (ls & PT & [_ Y]).
  unfold after_header. rewrite (uf_h _ _ _ _ _ _ _ _ F), EH, (part_lines _ _ PT). destruct (Y [] [] eq_refl) as (o & R & TO).
  unfold pp_run. assert (RR : fold_left pp_line ls (mkst M [] []) = mkst M [] o) by exact R. unfold mkst in RR at 1. rewrite RR. reflexivity.
Qed.

Lemma driver_ver : forall drv g d h c, driver drv g d h c -> let g0 := st_g (configure drv "" "" "" 0 0 false false false) in n_verhi g = n_verhi g0 /\ n_verlow g = n_verlow g0.
Proof. intros drv g d h c [RUN _ _ _]. destruct RUN as (srt & out & date & dbc & hi & low & nc & ni & nf & rest & _ & _ & _ & _ & _ & G & _). rewrite G. split; reflexivity. Qed.

Lemma util_quiet : forall drv g d h c who hu cu conf, driver drv g d h c -> header_ok d ->
  utility drv d who hu cu -> n_hi g = d_verhi d -> n_low g = d_verlow d ->
  errors (after_header (after_header conf h) hu) cu = [].
Proof.
  intros drv g d h c who hu cu conf DR HO U E1 E2. rewrite (util_header_macros _ _ _ _ _ _ U).
  destruct (driver_texts _ _ _ _ _ DR HO) as [_ (xs & ps & HD & _) _ _ [T1 T2]]. destruct (hd_ver _ HD) as [I1 I2].
  destruct (version_kept drv g d h c conf DR HO) as [C1 C2].
  destruct (utility_facts _ _ _ _ _ U) as (gu & rx & tx & F). destruct (facts_ok _ _ _ _ _ _ _ _ U F) as [OR _].
  destruct (uf_c _ _ _ _ _ _ _ _ F) as (uh & UH1 & UH2 & EC). destruct (uf_ver _ _ _ _ _ _ _ _ F) as [V1 V2]. destruct (driver_ver _ _ _ _ _ DR) as [W1 W2].
  destruct (ut_run _ _ _ _ _ U) as (xs' & xo & xd & xb & xn & xi & xf & xh & xc & X). cbv zeta in X. destruct X as (_ & _ & _ & H1 & H2 & _).
  destruct (ut_drv _ _ _ _ _ U) as [ID LD]. destruct (ut_name _ _ _ _ _ U) as [IU LU].
  apply (util_guard_quiet (after_header conf h) gu drv who (uf_gen _ _ _ _ _ _ _ _ F) IU LU LD (ident_chars _ ID) uh (d_verhi d) (d_verlow d) rx tx cu OR UH1 UH2 H1 H2); auto.
  - now rewrite V1, <- W1.
  - now rewrite V2, <- W2.
  - now rewrite V1, <- W1.
  - now rewrite V2, <- W2.
  - now rewrite V1, <- W1, <- E1.
  - now rewrite V2, <- W2, <- E2.
Qed.

(** ** Prototypes *)

Lemma out_grows : forall ls st, exists o, pp_out (runs st ls) = (o ++ pp_out st)%list.
Proof.
  induction ls as [|l ls IH]; intros st; [exists []; reflexivity|]. change (runs st (l :: ls)) with (runs (pp_line st l) ls).
  destruct (IH (pp_line st l)) as (o & E). rewrite E.
  assert (X : exists o1, pp_out (pp_line st l) = (o1 ++ pp_out st)%list).
  { unfold pp_line. destruct (directive l) as [[dd r]|].
    - exists []. destruct (String.eqb dd "ifdef"); [reflexivity|]. destruct (String.eqb dd "ifndef"); [reflexivity|].
      destruct (String.eqb dd "else"); [destruct (pp_stack st); reflexivity|]. destruct (String.eqb dd "endif"); [reflexivity|].
      destruct (String.eqb dd "define"); [destruct (pp_active st); reflexivity|]. destruct (String.eqb dd "if"); reflexivity.
    - destruct (pp_active st); [exists [l]|exists []]; reflexivity. }
  destruct X as (o1 & X). exists (o ++ o1)%list. now rewrite X, List.app_assoc.
Qed.
Lemma top_toks_within : forall M ps s, at_top ps [L s] -> raw_ok s -> directive s = None -> within (lex s) (source_toks M (sconcat ps)).
Proof.
  intros M ps s (a & b & -> & (la & PA & BA) & (lb & PB & BB)) R D.
  unfold source_toks, pp_lines, pp_run. rewrite (part_lines _ _ (part_app _ _ _ _ PA (part_app _ _ _ _ (part_raw s R) PB))).
  set (st := {| pp_macros := M; pp_stack := []; pp_out := [] |}).
  change (fold_left pp_line (la ++ [s] ++ lb) st) with (runs st (la ++ [s] ++ lb)). rewrite !runs_app.
  assert (K : pp_stack (runs st la) = []) by (apply BA).
  destruct (out_grows lb (runs (runs st la) [s])) as (o & E). rewrite E. rewrite runs_one.
  assert (X : pp_out (pp_line (runs st la) s) = s :: pp_out (runs st la)).
  { unfold pp_line. rewrite D. unfold pp_active. rewrite K. reflexivity. }
  rewrite X, rev_app_distr. cbn [rev]. rewrite !map_app, !List.concat_app. cbn [map List.concat]. rewrite List.app_nil_r.
  exists (List.concat (map lex (rev (pp_out (runs st la))))), (List.concat (map lex (rev o))). now rewrite <- List.app_assoc.
Qed.

Definition proto_line (g : gendesc) (m : message) : string :=
  "uint32_t Unpack_" ++ g_name m ++ "_" ++ n_orig g ++ "(" ++ g_name m ++ "_t* _m, const uint8_t* _d, uint8_t dlc_);".
Lemma proto_raw : forall g m, src_ok g "" -> msg_ok m -> raw_ok (proto_line g m).
Proof.
  intros g m SO MO. destruct (so_len _ _ SO) as (S1 & S2 & _). pose proof (no_nl_ident _ (so_orig _ _ SO)) as NO.
  pose proof (no_nl_ident' _ (mo_name m MO)) as N1. pose proof (mo_name_len m MO) as L1. unfold proto_line. raw.
Qed.
Lemma proto_lex : forall g m, all_chars is_idchar (n_orig g) = true -> is_ident (g_name m) = true -> lex (proto_line g m) = unpack_proto (n_orig g) m.
Proof.
  intros g m O N. pose proof (un_name_ident g m O N) as IU.
  assert (IT : is_ident (g_name m ++ "_t") = true) by (apply ident_prefix; auto).
  replace (proto_line g m) with ("uint32_t " ++ (un_name g m ++ ("(" ++ ((g_name m ++ "_t") ++ ("* _m, const uint8_t* _d, uint8_t dlc_);" ++ ""))))).
  2: { unfold proto_line, un_name. rewrite !app_assoc. reflexivity. }
  unfold lex. lexrun ltac:(rewrite lex_ident' by auto). reflexivity.
Qed.
Lemma proto_top : forall g m, src_ok g "" -> msg_ok m -> g_notempty m = true -> at_top (msg_prototypes g m) [L (proto_line g m)].
Proof.
  intros g m SO MO NE. unfold msg_prototypes. rewrite NE. cbn [negb].
  destruct (so_len _ _ SO) as (S1 & S2 & _). pose proof (no_nl_ident' _ (so_struct _ _ SO)) as NS.
  pose proof (no_nl_ident _ (so_orig _ _ SO)) as NO.
  pose proof (no_nl_ident' _ (mo_name m MO)) as N1. pose proof (mo_name_len m MO) as L1.
  match goal with |- at_top [?a; ?b; ?c; ?d; ?e; ?f; ?g] _ => exists [], ((b :: [c] ++ d :: [e] ++ [f]) ++ [g])%list end.
  split; [reflexivity|]. split; [apply bpart_nil|]. apply bpart_app; [|apply bp_nls].
  apply bp_if_else; [raw|raw|apply raw_intro; [reflexivity|cbn; lia]|apply opens_ifdef, SO|reflexivity|apply endif_tail| |];
    (apply bp_plain; [raw|reflexivity]).
Qed.

Lemma header_proto : forall drv g d h c conf msg, driver drv g d h c -> header_ok d -> In msg (d_msgs d) -> g_notempty msg = true ->
  within (unpack_proto drv msg) (source_toks conf h).
Proof.
  intros drv g d h c conf msg DR HO IM NE. destruct (driver_texts _ _ _ _ _ DR HO) as [_ (xs & ps & HD & PM & HK & EH & ->) _ EO _].
  assert (J : In msg (map x_msg xs)) by (eapply Permutation_in; [apply Permutation_sym; exact PM|exact IM]).
  apply in_map_iff in J. destruct J as (x & <- & J). pose proof (hd_src _ HD) as SO. pose proof (HK x J) as [MO _].
  rewrite <- EO, <- proto_lex; [|apply SO|apply MO].
  apply top_toks_within; [|now apply proto_raw|reflexivity].
  unfold main_header in EH. destruct (msg_headers g [] xs) as [t| |] eqn:ET; cbn [bind] in EH; try discriminate. apply Ok_inj in EH. subst ps.
  pose proof (ho_dlc d HO) as MX. destruct (head_top g (d_maxdlc d) HD ltac:(lia)) as (T0 & _).
  destruct (msg_headers_top g xs [] t HD HK ET) as (M1 & _).
  apply top_r; [|exact T0]. apply top_r; [|exact M1]. apply top_r; [|apply bpart_cons; [lit|apply bp_nls]].
  apply top_l; [|apply cpp_bp].
  clear - J HK HD SO NE MO. induction xs as [|y r IH]; [destruct J|]. cbn [map List.concat].
  assert (B : bpart (List.concat (map (fun x => msg_prototypes g (x_msg x)) r))).
  { apply bpart_concat. apply Forall_map. apply Forall_forall. intros z Z. apply protos_bp; [exact SO|apply HK; now right]. }
  destruct J as [->|J].
  - apply top_l; [now apply proto_top|exact B].
  - apply top_r; [apply IH; auto; intros z Z; apply HK; now right|]. apply protos_bp; [exact SO|apply HK; now left].
Qed.

(** ** Calls *)

(** the text of the tree is a statement, whatever the IDs are *)
Section Codes.
Variable (drv : string) (l : list message).
Hypothesis Oks : forall m, In m l -> umsg_ok m.
Hypothesis Dlen : (String.length drv <= 900)%nat.
Hypothesis Dchars : all_chars is_idchar drv = true.
Notation at_ j := (nth j l no_message).
Lemma tree_codes : forall fuel lo hi, (lo < hi <= List.length l)%nat -> (hi - lo <= fuel)%nat ->
  exists t st fin, fill_tree fuel drv l lo hi true = Some t /\ codes t st /\ low_form drv t st fin.
Proof.
  induction fuel as [|f IH]; intros lo hi LH F; [lia|]. cbn [fill_tree].
  replace (hi <? 1)%nat with false by lia. cbn [negb andb].
  assert (A : forall j, (j < List.length l)%nat -> umsg_ok (at_ j)) by (intros j J; apply Oks, nth_In, J).
  pose proof (A lo ltac:(lia)) as UL.
  destruct (Nat.ltb_spec 1 (hi - lo)) as [S1|S1].
  - assert (HALF : (1 <= Nat.div2 (hi - lo) /\ Nat.div2 (hi - lo) < hi - lo)%nat).
    { pose proof (Nat.div2_odd (hi - lo)) as O. pose proof (Nat.lt_div2 (hi - lo) ltac:(lia)). destruct (Nat.odd (hi - lo)); cbn [Nat.b2n] in O; lia. }
    set (h := Nat.div2 (hi - lo)) in *. clearbody h.
    destruct (IH lo (lo + h)%nat ltac:(lia) ltac:(lia)) as (th & sh & fh & EH & CH & _).
    destruct (IH (lo + h)%nat hi ltac:(lia) ltac:(lia)) as (tl & sl & fl & EL & CL & LL).
    pose proof (A (lo + h)%nat ltac:(lia)) as UH. rewrite EH, EL.
    assert (X : exists e, cond_text (if (1 <? h)%nat then id_range_text (at_ lo) (at_ (lo + h)) else id_eq_text (at_ lo)) e).
    { destruct (Nat.ltb_spec 1 h) as [H1|H1]; [exists (rng_e (at_ lo) (at_ (lo + h))); now apply rng_cond|exists (eq_e (at_ lo)); now apply eq_cond]. }
    destruct X as (e & CE). exists (CCond (if (1 <? h)%nat then id_range_text (at_ lo) (at_ (lo + h)) else id_eq_text (at_ lo)) (Some th) (Some tl)),
      (SIf e (SBlock [sh]) (Some fl)), (SBlock [SIf e (SBlock [sh]) (Some fl)]).
    split; [reflexivity|]. split; [eapply cond_codes; eassumption|reflexivity].
  - assert (hi = S lo) by lia. subst hi.
    exists (CExpress (id_eq_text (at_ lo)) (call_text drv (at_ lo))), (call_s drv (at_ lo)), (SIf (eq_e (at_ lo)) (SBlock [call_s drv (at_ lo)]) None).
    split; [reflexivity|]. split; [|cbn [low_form]; exists (eq_e (at_ lo)); split; [now apply eq_cond|reflexivity]].
    exists (call_toks drv (at_ lo)). split; [apply call_parses|]. intros i M. cbn [write_code]. now apply body_codes.
Qed.
Lemma any_codes : l <> [] -> exists t st, fill_tree (S (List.length l)) drv l 0 (List.length l) false = Some t /\ codes t st.
Proof.
  intros NE. assert (L : (0 < List.length l)%nat) by (destruct l; [congruence|cbn; lia]).
  destruct (Nat.eq_dec (List.length l) 1) as [E|E].
  - pose proof (Oks _ (nth_In l no_message L)) as U.
    exists (CCond (id_eq_text (at_ 0%nat)) (Some (CSingle (call_text drv (at_ 0%nat)))) None), (SIf (eq_e (at_ 0%nat)) (SBlock [call_s drv (at_ 0%nat)]) None).
    rewrite E. split; [reflexivity|]. apply single_codes; auto; now apply eq_cond.
  - destruct (tree_codes (S (List.length l)) 0 (List.length l) ltac:(lia) ltac:(lia)) as (t & st & fin & EF & C' & _).
    exists t, st. split; [|exact C'].
    rewrite <- EF. cbn [fill_tree]. replace (List.length l <? 1)%nat with false by lia. replace (List.length l =? 1)%nat with false by lia. reflexivity.
Qed.
End Codes.

Lemma receive_calls : forall drv d who hu cu M, utility drv d who hu cu ->
  forall fd f, In fd (u_funs (compile M cu)) -> In f (call_names (fd_body fd)) ->
  f = "if" \/ exists msg, In msg (d_msgs d) /\ g_notempty msg = true /\ (NoDup (map g_id (d_msgs d)) -> received who msg) /\ f = unpack_name drv msg.
Proof.
  intros drv d who hu cu M U fd f IF IC. destruct (utility_facts _ _ _ _ _ U) as (g & rx & tx & F).
  destruct (facts_ok _ _ _ _ _ _ _ _ U F) as [OR _]. destruct (uf_rx _ _ _ _ _ _ _ _ F) as [P SS]. destruct (uf_c _ _ _ _ _ _ _ _ F) as (uh & UH1 & UH2 & EC).
  destruct (ut_run _ _ _ _ _ U) as (xs & xo & xd & xb & xn & xi & xf & xh & xc & X). cbv zeta in X. destruct X as (_ & _ & _ & H1 & H2 & _).
  destruct (ut_drv _ _ _ _ _ U) as [ID LD]. destruct (ut_name _ _ _ _ _ U) as [IU LU].
  pose proof (uf_gen _ _ _ _ _ _ _ _ F) as G.
  pose proof (head_yp M g drv who G LU uh _ _ UH1 UH2 H1 H2) as YH. destruct (globs_yp M g drv who G IU LU rx tx) as (tg & YG & FG).
  assert (ER : rx = [] \/ rx <> []) by (destruct rx; [now left|right; discriminate]). destruct ER as [->|NE].
  - exfalso. pose proof (yp_app M _ _ _ _ YH YG) as (ls & PT & YS).
    assert (EL : lines cu = ls).
    { subst cu. rewrite <- (part_lines _ _ PT). unfold util_source, source_head, source_globs. rewrite List.app_nil_r. reflexivity. }
    destruct YS as [_ YS]. destruct (YS [] [] eq_refl) as (out & RO & TO).
    unfold compile, pp_run in IF. rewrite EL in IF. assert (RR : fold_left pp_line ls (mkst M [] []) = mkst M [] out) by exact RO.
    unfold mkst in RR at 1. rewrite RR in IF. cbn [mkst pp_macros pp_out u_macros u_funs] in IF.
    unfold otoks in TO. rewrite TO in IF. cbn [rev map List.concat List.app] in IF. unfold fundefs in IF. change fstart with (fs0 []) in IF.
    rewrite FG in IF. exact IF.
  - destruct (any_codes drv rx OR LD (ident_chars _ ID) NE) as (t & st & EF & (ts & PS & Y)).
    destruct (source_unit M g drv who G IU LU rx OR NE LD uh _ _ tx cu t ts st UH1 UH2 H1 H2 EC EF PS (fun i => Y i M)) as (_ & UF).
    rewrite UF in IF. destruct IF as [<-|[]]. cbn [recv_def fd_body] in IC.
    assert (LEN : (0 < List.length rx <= List.length rx)%nat) by (destruct rx; [congruence|cbn; lia]).
    destruct (tree_piece drv rx OR LD (ident_chars _ ID) t 0 (fill_in drv rx _ _ _ _ _ LEN EF)) as (t2 & N2 & NP & CO & _ & Y2).
    assert (ts = t2) by (eapply yp_unique; [apply (Y 0%nat M)|apply Y2]). subst t2.
    rewrite call_names_app in IC by (destruct ts as [|u ts]; [congruence|exact NP]).
    rewrite call_names_app in IC by exact Logic.I. apply in_app_iff in IC. destruct IC as [[]|IC]. apply in_app_iff in IC. destruct IC as [IC|[]].
    destruct (CO f IC) as [->|(m & IM & ->)]; [now left|right]. exists m.
    assert (IR : In m (rx_of d who)) by (eapply Permutation_in; eauto). split; [unfold rx_of, group_rx in IR; now apply filter_In in IR as [IR _]|].
    split; [unfold rx_of, group_rx in IR; apply filter_In in IR as [_ IR]; now apply andb_true_iff in IR as [IR _]|]. split; [|reflexivity].
    intros N. now apply (rx_of_in d who m N) in IR.
Qed.

(** ** Included files *)

Lemma included_line : forall t x, In ("#include " ++ dq ++ x ++ dq) (lines t) -> has_char """" x = false -> In x (included t).
Proof.
  intros t x E Q. unfold included. apply in_flat_map. eexists. split; [exact E|].
  assert (D : directive ("#include " ++ dq ++ x ++ dq) = Some ("include", String """" (x ++ dq))).
  { pose proof (directive_word "include" (dq ++ x ++ dq) eq_refl ltac:(discriminate)) as D. change ("#include " ++ dq ++ x ++ dq) with ("#" ++ "include" ++ " " ++ (dq ++ x ++ dq)). rewrite D. reflexivity. }
  rewrite D. cbn [String.eqb Ascii.eqb Bool.eqb andb].
  assert (S : fst (span (fun c => negb (Ascii.eqb c """")) (x ++ dq)) = x).
  { clear - Q. induction x as [|c x IH]; [reflexivity|]. cbn [append span]. cbn [has_char] in Q. apply orb_false_iff in Q. destruct Q as [Q1 Q2].
    rewrite Ascii.eqb_sym, Q1. cbn [negb]. destruct (span _ (x ++ dq)) as [p q] eqn:E. cbn [fst] in *. f_equal. now apply IH. }
  rewrite S. now left.
Qed.
Lemma piece_line : forall ps s, Forall full ps -> In (L s) ps -> raw_ok s -> In s (lines (sconcat ps)).
Proof. intros ps s F I R. rewrite lines_pieces by exact F. unfold plines. apply in_flat_map. exists (L s). split; [exact I|]. rewrite lines_L by exact R. now left. Qed.
Lemma no_quote : forall s, all_chars is_idchar s = true -> has_char """" s = false.
Proof. intros s A. apply has_char_false with is_idchar; [exact A|reflexivity]. Qed.

Lemma driver_includes : forall drv g d h c, driver drv g d h c -> header_ok d -> In (str_tolower drv ++ ".h") (included c).
Proof.
  intros drv g d h c DR HO. destruct (driver_texts _ _ _ _ _ DR HO) as [(ms & SO & EL & _) _ _ _ _]. destruct (dr_drv _ _ _ _ _ DR) as [ID _].
  apply included_line.
  - rewrite EL, src_split. apply in_app_iff. left. unfold pre_lines. rewrite !in_app_iff. right. right. now left.
  - rewrite has_char_app, (no_quote _ (ident_chars _ (lower_ident _ ID))). reflexivity.
Qed.
Lemma util_includes : forall drv d who hu cu, utility drv d who hu cu ->
  In (str_tolower drv ++ ".h") (included hu) /\ In (util_name drv who ++ "-binutil.h") (included cu).
Proof.
  intros drv d who hu cu U. destruct (utility_facts _ _ _ _ _ U) as (g & rx & tx & F). pose proof (uf_gen _ _ _ _ _ _ _ _ F) as G.
  destruct (ut_drv _ _ _ _ _ U) as [ID LD]. destruct (ut_name _ _ _ _ _ U) as [IU LU]. pose proof (lower_ident _ ID) as IL. pose proof (lower_len drv) as LL.
  split; apply included_line.
  - rewrite (uf_h _ _ _ _ _ _ _ _ F). change ("#include " ++ dq ++ (str_tolower drv ++ ".h") ++ dq) with ("#include " ++ dq ++ (str_tolower drv ++ ".h") ++ dq).
    replace ("#include " ++ dq ++ (str_tolower drv ++ ".h") ++ dq) with ("#include " ++ dq ++ str_tolower drv ++ ".h" ++ dq) by (now rewrite !app_assoc).
    apply piece_line.
    + destruct G as [_ _ [GC _] [GF _] _]. unfold util_header. destruct rx, tx; cbn [nonempty orb List.app];
        repeat first [apply Forall_nil | apply Forall_cons; [first [exact GC|exact GF|apply L_full|apply nls_full|apply append_s_full]|] | apply Forall_app; split
          | apply Forall_map, Forall_forall; intros; apply L_full ].
    + cbn [util_header List.app In]. tauto.
    + apply raw_intro; [rewrite !no_nl_app, (no_nl_ident' _ IL); reflexivity|rewrite !app_len; change (String.length dq) with 1%nat; cbn [String.length]; lia].
  - rewrite has_char_app, (no_quote _ (ident_chars _ IL)). reflexivity.
  - rewrite (uf_uh _ _ _ _ _ _ _ _ F). apply piece_line.
    + destruct G as [_ _ [GC _] [GF _] _]. unfold util_source, receive_text. destruct rx, tx; cbn [nonempty orb List.app];
        repeat first [apply Forall_nil | apply Forall_cons; [first [exact GC|exact GF|apply L_full|apply nls_full|apply append_s_full]|] | apply Forall_app; split].
    + unfold util_source. cbn [List.app In]. tauto.
    + apply raw_intro; [rewrite !no_nl_app, (no_nl_ident' _ IU); reflexivity|rewrite !app_len; change (String.length dq) with 1%nat; cbn [String.length]; lia].
  - rewrite has_char_app, (no_quote _ (ident_chars _ IU)). reflexivity.
Qed.
