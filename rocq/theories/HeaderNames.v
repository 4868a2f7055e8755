(** The #define lines of an emitted header. *)

From Coq Require Import ZArith NArith List String Ascii Bool Lia ZifyBool Permutation.
From Verif Require Import Base Dbl CSyntax CSem CRun Types Formatter SigPrinter Writer Settings
  MainGen App CodecSpec MsgSpec LexLemmas BitLemmas CSemLemmas Chunks UnpackProof PPProof BodyLemmas
  UnpackBody UnpackFun PackProof PackBody PackFun SourceFun DriverSpec DriverProof HeaderSpec HeaderProof HeaderRun NamesSpec.
Import ListNotations.
Open Scope string_scope.

Definition dpart (ps ns : list string) : Prop := exists ls, part ps ls /\ defines ls = ns.

Lemma dp_nil : dpart [] [].
Proof. exists []. split; [apply part_nil|reflexivity]. Qed.
Lemma dp_app : forall a na b nb, dpart a na -> dpart b nb -> dpart (a ++ b) (na ++ nb).
Proof.
  intros a na b nb (la & A & EA) (lb & B & EB). exists (la ++ lb)%list. split; [now apply part_app|].
  rewrite defines_app. congruence.
Qed.
Lemma dp_cons : forall p np b nb, dpart [p] np -> dpart b nb -> dpart (p :: b) (np ++ nb).
Proof. intros p np b nb. apply (dp_app [p] np b nb). Qed.
Lemma dp_cons0 : forall p b nb, dpart [p] [] -> dpart b nb -> dpart (p :: b) nb.
Proof. intros p b nb. apply (dp_app [p] [] b nb). Qed.
Lemma dp_app0 : forall a b nb, dpart a [] -> dpart b nb -> dpart (a ++ b) nb.
Proof. intros a b nb. apply (dp_app a [] b nb). Qed.
Lemma dp_concat : forall l ns, Forall2 dpart l ns -> dpart (List.concat l) (List.concat ns).
Proof. induction 1; cbn [List.concat]; [apply dp_nil|now apply dp_app]. Qed.
Lemma dp_concat0 : forall l, Forall (fun p => dpart p []) l -> dpart (List.concat l) [].
Proof. induction 1; cbn [List.concat]; [apply dp_nil|now apply dp_app0]. Qed.

Lemma defines_none : forall ls, Forall (fun l => directive l = None) ls -> defines ls = [].
Proof.
  induction 1 as [|l ls D F IH]; [reflexivity|]. change (l :: ls) with ([l] ++ ls)%list. rewrite defines_app, IH.
  unfold defines. cbn [flat_map]. now rewrite D.
Qed.
Lemma dp_plain : forall s, raw_ok s -> directive s = None -> dpart [L s] [].
Proof. intros s R D. exists [s]. split; [now apply part_raw|]. apply defines_none. auto. Qed.
Lemma dp_dir : forall s d, raw_ok s -> dword s = Some d -> d <> "define" -> dpart [L s] [].
Proof.
  intros s d R W N. exists [s]. split; [now apply part_raw|]. unfold defines. cbn [flat_map]. unfold dword in W.
  destruct (directive s) as [[w r]|]; [|reflexivity]. injection W as ->. apply String.eqb_neq in N. now rewrite N.
Qed.
Lemma dp_opens : forall s, raw_ok s -> opens s -> dpart [L s] [].
Proof. intros s R [O|[O|O]]; eapply dp_dir; eauto; discriminate. Qed.
Lemma dp_skip : forall s, raw_ok s -> skip_dir s -> dpart [L s] [].
Proof.
  intros s R (d & r & D & N). apply (dp_dir s d R); [unfold dword; now rewrite D|]. intros ->. discriminate.
Qed.
Lemma dp_def : forall s x, raw_ok ("#define " ++ s) -> def_head s -> fst (pp_define s) = x -> dpart [L ("#define " ++ s)] [x].
Proof.
  intros s x R D <-. exists [("#define " ++ s)%string]. split; [now apply part_raw|]. unfold defines. cbn [flat_map].
  rewrite directive_define by auto. reflexivity.
Qed.
Lemma dp_nls : forall n, dpart [nls n] [].
Proof.
  intros n. exists (lines (nls n)). split; [apply part_full, nls_full|]. rewrite lines_nls. apply defines_none.
  apply Forall_forall. intros x I. apply repeat_spec in I. now subst.
Qed.
Lemma dp_comment : forall p c, no_nl p = true -> (forall r, directive (p ++ r) = None) -> dpart [append_s (p ++ replace_nl p c)] [].
Proof.
  intros p c N D. eexists. split; [apply part_full, append_s_full|]. apply defines_none.
  eapply Forall_impl; [|now apply comment_lines]. intros l [r ->]. apply D.
Qed.
Lemma dp_info : forall s, info_ok s -> dpart [s] [].
Proof. intros s [F C]. exists (lines s). split; [now apply part_full|]. apply defines_none. now apply comments_plain. Qed.
Lemma dp_cpp : dpart [L cpp_open] [] /\ dpart [L cpp_close] [].
Proof. split; (eexists; split; [apply part_full, L_full|vm_compute; reflexivity]). Qed.

(** the name a #define line gives *)
Lemma define_name : forall x c r, is_ident x = true -> is_idchar c = false -> fst (pp_define (x ++ String c r)) = x.
Proof.
  intros x c r I C. unfold pp_define. rewrite span_ident; [|now apply ident_chars|exact C].
  assert (X : forall (a b : string * macro), fst a = x -> fst b = x -> fst (if true then a else b) = x) by auto.
  destruct c as [[] [] [] [] [] [] [] []]; try reflexivity. now destruct (pp_params r).
Qed.

(** ** Struct fields define nothing *)

Ltac rawlit := apply raw_intro; [reflexivity|cbn; lia].
Ltac dlit := apply dp_plain; [rawlit|reflexivity].

Lemma field_dp : forall g bits w sg fs, sig_struct_field g bits w sg = Ok fs -> gen_ok g ->
  no_nl (s_name sg) = true -> no_nl (s_unit sg) = true ->
  (s_simple sg = false -> is_ident (s_namefloat sg) = true /\ (String.length (s_namefloat sg) <= 1010)%nat) ->
  dpart fs [].
Proof.
  intros g bits w sg fs E GO N U P. unfold sig_struct_field in E.
  destruct (field_decl sg bits w) as [decl| |] eqn:ED; cbn [bind] in E; try discriminate.
  destruct (info_comment sg) as [info| |] eqn:EI; cbn [bind] in E; try discriminate. apply Ok_inj in E; rewrite <- E; clear E.
  destruct (decl_shape _ _ _ _ ED N) as [ND [dr DR]]. pose proof (info_nonl _ _ EI U) as NI.
  pose proof (no_nl_ident' _ (go_sigfloat g GO)) as NF. destruct (go_len g GO) as (G1 & _).
  apply dp_app0; [|apply dp_app0; [|apply dp_app0; [|apply dp_app0]]].
  - destruct (has_text (s_comment sg)); [|apply dp_nil]. apply dp_comment; [reflexivity|]. intros r. reflexivity.
  - destruct (has_text (s_valtext sg)); [|apply dp_nil]. apply dp_comment; [reflexivity|]. intros r. reflexivity.
  - destruct (s_mux sg); [apply dp_nil| |]; apply dp_plain; try reflexivity; rawlit.
  - change [decl; (" // " ++ (if s_signed sg then " [-]" else "    "))%string; text_f (" Bits=" ++ pd2 (s_len sg)); info; L ""; nls 1]
      with ([decl; (" // " ++ (if s_signed sg then " [-]" else "    "))%string; text_f (" Bits=" ++ pd2 (s_len sg)); info; L ""] ++ [nls 1])%list.
    apply dp_app0; [|apply dp_nls].
    set (a := (" // " ++ (if s_signed sg then " [-]" else "    "))%string). set (b := text_f _).
    exists [(decl ++ a ++ b ++ info)%string]. split.
    + intros r. cbn [sconcat]. change (L "") with (String NL ""). rewrite app_nil_r.
      transitivity (lines ((decl ++ a ++ b ++ info) ++ String NL r)); [now rewrite !app_assoc|].
      apply lines_line. rewrite !no_nl_app, ND, NI. assert (X : no_nl a = true) by (subst a; destruct (s_signed sg); reflexivity).
      assert (Y : no_nl b = true).
      { subst b. apply cut_nonl. unfold pd2, pad_left. rewrite !no_nl_app, decZ_nonl, no_nl_repeat by discriminate. reflexivity. }
      now rewrite X, Y.
    + apply defines_none. constructor; [|constructor]. rewrite DR. reflexivity.
  - destruct (s_simple sg) eqn:SS; [apply dp_nil|]. destruct (P eq_refl) as [P1 P2].
    pose proof (no_nl_ident' _ P1) as NP.
    apply dp_cons0; [apply dp_opens; [raw|apply opens_ifdef, GO]|]. apply dp_cons0.
    + destruct (s_double sg); apply dp_plain; try reflexivity; [raw|].
      pose proof (no_nl_type (s_typephys sg)). assert (String.length (print_type (s_typephys sg)) <= 10)%nat by (destruct (s_typephys sg); cbn; lia). raw.
    + apply dp_cons0; [|apply dp_nls]. eapply dp_dir; [raw|apply endif_tail|discriminate].
Qed.

Lemma fields_dp : forall g m bits w fs, gen_ok g -> hmsg_ok m -> struct_fields g m bits w = Ok fs -> dpart fs [].
Proof.
  intros g m bits w fs GO [MO HO] E. unfold struct_fields in E.
  destruct (map_res (sig_struct_field g bits w) (g_sigs m)) as [f| |] eqn:EF; cbn [bind] in E; try discriminate.
  assert (B1 : dpart (List.concat f) []).
  { apply dp_concat0. clear E.
    assert (X : forall l f, (forall sg, In sg l -> In sg (g_sigs m)) -> map_res (sig_struct_field g bits w) l = Ok f -> Forall (fun p => dpart p []) f).
    { induction l as [|sg l IH]; intros f0 S EF0.
      - injection EF0 as <-. constructor.
      - cbn [map_res] in EF0. destruct (sig_struct_field g bits w sg) as [p| |] eqn:EP; cbn [bind] in EF0; try discriminate.
        destruct (map_res (sig_struct_field g bits w) l) as [q| |]; cbn [bind] in EF0; try discriminate. injection EF0 as <-.
        pose proof (mo_sigs m MO sg (S sg (or_introl eq_refl))) as SO. pose proof (HO sg (S sg (or_introl eq_refl))) as HS.
        constructor; [|apply IH; auto; intros; apply S; now right].
        apply (field_dp _ _ _ _ _ EP GO); [apply no_nl_ident', SO|apply HS|apply SO]. }
    eapply X; eauto. }
  destruct (roll_sig m) as [rs|] eqn:ER.
  - destruct (sig_struct_field g bits w (expt_sig rs)) as [p| |] eqn:EP; cbn [bind] in E; try discriminate. apply Ok_inj in E. rewrite <- E. clear E.
    assert (IR : In rs (g_sigs m)).
    { unfold roll_sig in ER. destruct (g_roll m); [|discriminate]. now apply nth_error_In in ER. }
    pose proof (mo_sigs m MO rs IR) as SO. pose proof (HO rs IR) as HS.
    apply dp_app0; [auto|]. pose proof (no_nl_ident' _ (go_roll g GO)) as NR. destruct (go_len g GO) as (_ & _ & G3 & _).
    apply dp_app0; [apply dp_cons0; [apply dp_opens; [raw|apply opens_ifdef, GO]|apply dp_nls]|].
    apply dp_app0; [|apply dp_cons0; [eapply dp_dir; [raw|apply endif_tail|discriminate]|apply dp_nls]].
    apply (field_dp _ _ _ _ _ EP GO).
    + cbn [s_name expt_sig]. rewrite no_nl_app, (no_nl_ident' _ (ok_name _ _ SO)). reflexivity.
    + apply HS.
    + apply SO.
  - cbn [bind] in E. apply Ok_inj in E. rewrite <- E. apply dp_app0; auto using dp_nil.
Qed.

(** ** The constants of a message *)

Lemma const_dp : forall m k c r, msg_ok m -> In (k, String c r) (consts m) -> all_chars is_idchar k = true -> is_idchar c = false ->
  dpart [L (const_line m k (String c r))] [(g_name m ++ k)%string].
Proof.
  intros m k c r MO I K C. unfold const_line. apply dp_def.
  - change ("#define " ++ g_name m ++ k ++ String c r) with (const_line m k (String c r)). now apply const_raw.
  - apply ident_head, MO.
  - rewrite <- app_assoc. apply define_name; [|exact C]. apply ident_prefix; [apply MO|exact K].
Qed.
Lemma consts_dp : forall m, msg_ok m -> dpart (msg_consts m) (id_names m).
Proof.
  intros m MO. unfold msg_consts, id_names.
  assert (C : dpart (if has_text (g_comment m) then [append_s ("// " ++ replace_nl "// " (g_comment m))] else []) []).
  { destruct (has_text (g_comment m)); [|apply dp_nil]. apply dp_comment; reflexivity. }
  assert (H : dpart [L ("// def @" ++ g_name m ++ " CAN Message (" ++ pd4l (swrap 32 (g_id m)) ++ " " ++ px (g_id m) ++ ")")] []).
  { pose proof (no_nl_ident' _ (mo_name m MO)) as N. pose proof (mo_name_len m MO) as LN.
    pose proof (mo_id m MO). pose proof (px_len (g_id m) ltac:(lia)).
    pose proof (decZ_len (swrap 32 (g_id m)) ltac:(pose proof (swrap_in (g_id m)); lia)) as LZ.
    assert (NP : no_nl (pd4l (swrap 32 (g_id m))) = true).
    { unfold pd4l, pad_right. rewrite no_nl_app, decZ_nonl, no_nl_repeat by discriminate. reflexivity. }
    assert (LP : (String.length (pd4l (swrap 32 (g_id m))) <= 70)%nat).
    { unfold pd4l, pad_right. rewrite app_len, len_repeat. lia. }
    apply dp_plain; [raw|reflexivity]. }
  apply dp_app0; [exact C|]. apply dp_app.
  - apply dp_cons0; [exact H|]. apply (dp_cons _ [_]); [|apply (dp_cons _ [_])].
    + apply (const_dp m "_IDE" " " ("(" ++ pu (g_ext m) ++ "U)")); auto. apply in_app_iff. left. cbn. auto.
    + apply (const_dp m "_DLC" " " ("(" ++ pu (g_dlc m) ++ "U)")); auto. apply in_app_iff. left. cbn. auto.
    + apply (const_dp m "_CANID" " " ("(" ++ px (g_id m) ++ "U)")); auto. apply in_app_iff. left. cbn. auto.
  - destruct (0 <? g_cycle m)%Z eqn:CY; [|apply dp_nil].
    apply (const_dp m "_CYC" " " ("(" ++ decZ (swrap 32 (g_cycle m)) ++ "U)")); auto. apply in_app_iff. right. rewrite CY. now left.
Qed.

(** ** Value tables and conversion macros *)

Definition table_names (m : message) (sg : signal) : list string :=
  map (fun p => s_name sg ++ "_" ++ g_name m ++ "_" ++ fst p)%string (s_valdefs sg).

Lemma table_dp : forall m sg p, msg_ok m -> sig_ok (g_dlc m) sg -> header_sig_ok sg -> In p (s_valdefs sg) ->
  dpart (table_pieces m sg p) [(s_name sg ++ "_" ++ g_name m ++ "_" ++ fst p)%string].
Proof.
  intros m sg p MO SO HO I. destruct (table_part m sg p MO SO HO I) as [P _]. exists (table_lines m sg p). split; [exact P|].
  destruct p as [t v]. destruct (hs_table sg HO t v I) as [T1 T2]. cbn [fst snd] in *.
  assert (ID : is_ident (table_name m sg t) = true) by (apply table_ident; [apply (ok_name _ _ SO)|apply (mo_name _ MO)|exact T1]).
  unfold table_lines, defines. cbn [flat_map fst snd]. rewrite directive_ifndef by auto.
  change (String.eqb "ifndef" "define") with false. cbv iota. rewrite directive_define by now apply ident_head.
  change (String.eqb "define" "define") with true. cbv iota. cbn [List.app].
  change (" (" ++ decZ (swrap 32 v) ++ ")") with (String " " ("(" ++ decZ (swrap 32 v) ++ ")")).
  rewrite (define_name (table_name m sg t) " " ("(" ++ decZ (swrap 32 v) ++ ")")) by auto. reflexivity.
Qed.
Lemma vt_dp : forall m sg, msg_ok m -> sig_ok (g_dlc m) sg -> header_sig_ok sg -> dpart (value_table m sg) (table_names m sg).
Proof.
  intros m sg MO SO HO. unfold value_table.
  assert (P : forall l, (forall p, In p l -> In p (s_valdefs sg)) ->
    dpart (List.concat (map (fun p =>
         let defname := str_print (s_name sg ++ "_" ++ g_name m ++ "_" ++ fst p) in
         [L ("#ifndef " ++ defname);
          L ("#define " ++ s_name sg ++ "_" ++ g_name m ++ "_" ++ fst p ++ " ("
               ++ decZ (swrap 32 (snd p)) ++ ")");
          L "#endif"; nls 1]) l)) (map (fun p => s_name sg ++ "_" ++ g_name m ++ "_" ++ fst p)%string l)).
  { induction l as [|p l IH]; intros S; [apply dp_nil|]. cbn [map List.concat]. cbv zeta.
    match goal with |- dpart (?a ++ ?b) _ => change a with (table_pieces m sg p ++ [nls 1])%list end.
    apply (dp_app _ [_]); [|apply IH; intros q I; apply S; now right].
    apply (dp_app _ [_] _ []); [|apply dp_nls]. apply table_dp; auto. apply S. now left. }
  specialize (P (s_valdefs sg) (fun p I => I)). unfold table_names.
  destruct (s_valdefs sg) as [|q0 qs] eqn:EV; [apply dp_nil|]. rewrite <- EV in *. clear EV.
  pose proof (no_nl_ident' _ (ok_name _ _ SO)) as N2. pose proof (ok_name_len _ _ SO) as L2.
  apply dp_cons0; [|apply dp_cons0; [apply dp_nls|exact P]].
  exists [""; ("// Value tables for @" ++ s_name sg ++ " signal")%string]. split; [|reflexivity].
  set (s := ("// Value tables for @" ++ s_name sg ++ " signal")%string). rewrite <- (lines_L2 "" s).
  - apply part_full, L_full.
  - reflexivity.
  - unfold s. nonls.
  - discriminate.
  - unfold s. rewrite !app_len. cbn [String.length]. lia.
Qed.

Lemma conv_shape : forall sg a b c, conv_texts sg = Ok (a, b, c) ->
  exists x y z, a = "_CovFactor" ++ String " " x /\ b = "_toS" ++ String "(" y /\ c = "_fromS" ++ String "(" z.
Proof.
  intros sg a b c E. unfold conv_texts in E. cbv zeta in E. destruct (s_double sg).
  - apply Ok_inj in E. apply pair_equal_spec in E. destruct E as [E <-]. apply pair_equal_spec in E. destruct E as [<- <-].
    do 3 eexists. repeat split.
  - destruct (cast_i32 (s_factor sg)); cbn [bind] in E; try discriminate. destruct (deqb (s_offset sg) _).
    + apply Ok_inj in E. apply pair_equal_spec in E. destruct E as [E <-]. apply pair_equal_spec in E. destruct E as [<- <-].
      do 3 eexists. repeat split.
    + destruct (cast_i32 (s_offset sg)); cbn [bind] in E; try discriminate.
      destruct (deqb (s_factor sg) _); apply Ok_inj in E; apply pair_equal_spec in E; destruct E as [E <-]; apply pair_equal_spec in E; destruct E as [<- <-];
        do 3 eexists; repeat split.
Qed.
Lemma conv_dp : forall D sg c ps, is_ident D = true -> is_ident (s_name sg) = true -> conv_texts sg = Ok c -> part ps (conv_lines D sg c) ->
  dpart ps (conv_names D (s_name sg)).
Proof.
  intros D sg [[a b] c] ps ID IN E P. exists (conv_lines D sg (a, b, c)). split; [exact P|].
  destruct (conv_shape _ _ _ _ E) as (x & y & z & -> & -> & ->). unfold conv_lines, defines, conv_names. cbn [flat_map].
  assert (H : forall r, def_head (conv_head D sg ++ r)) by (intros r; unfold conv_head; rewrite app_assoc; now apply ident_head).
  assert (N : forall k ch r, all_chars is_idchar k = true -> is_idchar ch = false ->
            fst (pp_define (conv_head D sg ++ k ++ String ch r)) = (D ++ "_" ++ s_name sg ++ k)%string).
  { intros k ch r K C. rewrite <- app_assoc. unfold conv_head. rewrite define_name; [now rewrite !app_assoc| |exact C].
    rewrite app_assoc. apply ident_prefix; [exact ID|]. now rewrite !all_chars_app, (ident_chars _ IN), K. }
  change (directive ("// signal: @" ++ s_name sg)) with (@None (string * string)). cbv iota. cbn [List.app].
  rewrite !directive_define by auto. change (String.eqb "define" "define") with true. cbv iota.
  rewrite !N by reflexivity. reflexivity.
Qed.

(** the scaled names a list of signals adds to those already passed *)
Fixpoint fresh (passed : list string) (l : list string) : list string * list string :=
  match l with
  | [] => (passed, [])
  | x :: r => if smem x passed then fresh passed r else let '(p, ns) := fresh (x :: passed) r in (p, x :: ns)
  end.
Lemma fresh_app : forall a b passed, fresh passed (a ++ b) =
  let '(p1, n1) := fresh passed a in let '(p2, n2) := fresh p1 b in (p2, n1 ++ n2)%list.
Proof.
  induction a as [|x a IH]; intros b passed; cbn [List.app fresh].
  - now destruct (fresh passed b).
  - destruct (smem x passed); [apply IH|]. rewrite IH. destruct (fresh (x :: passed) a) as [p1 n1]. now destruct (fresh p1 b).
Qed.
Lemma smem_in : forall x l, smem x l = true <-> In x l.
Proof.
  intros x l. unfold smem. rewrite existsb_exists. split.
  - intros (y & I & E). apply String.eqb_eq in E. now subst.
  - intros I. exists x. split; [exact I|apply String.eqb_refl].
Qed.
Lemma fresh_spec : forall l passed p ns, fresh passed l = (p, ns) ->
  NoDup ns /\ forall x, In x ns <-> In x l /\ ~ In x passed.
Proof.
  induction l as [|y r IH]; intros passed p ns E; cbn [fresh] in E.
  - injection E as <- <-. split; [constructor|]. cbn. tauto.
  - destruct (smem y passed) eqn:S.
    + apply smem_in in S. destruct (IH _ _ _ E) as [A B]. split; [exact A|]. intros x. rewrite B. cbn [In]. split; [tauto|].
      intros [[<-|I] N]; tauto.
    + destruct (fresh (y :: passed) r) as [p1 n1] eqn:F. injection E as <- <-. destruct (IH _ _ _ F) as [A B].
      assert (NS : ~ In y passed) by (intros I; apply smem_in in I; congruence). split.
      * constructor; [|exact A]. rewrite B. cbn [In]. tauto.
      * intros x. cbn [In]. rewrite B. cbn [In]. split.
        -- intros [<-|[I N]]; [tauto|]. split; [tauto|]. intros J. apply N. now right.
        -- intros [[<-|I] N]; [now left|]. destruct (string_dec x y) as [->|NE]; [now left|right]. split; [exact I|]. intros [X|X]; congruence || tauto.
Qed.
Lemma fresh_nodup : forall l p ns, fresh [] l = (p, ns) -> Permutation ns (nodup string_dec l).
Proof.
  intros l p ns E. destruct (fresh_spec _ _ _ _ E) as [A B]. apply NoDup_Permutation; [exact A|apply NoDup_nodup|].
  intros x. rewrite B, nodup_In. cbn [In]. tauto.
Qed.

Definition need (sgs : list signal) : list string := map s_name (filter (fun sg => negb (s_simple sg)) sgs).

Lemma macros_dp : forall g m sgs passed passed' t, gen_ok g -> msg_ok m -> (forall sg, In sg sgs -> In sg (g_sigs m)) ->
  (forall sg, In sg sgs -> header_sig_ok sg) -> sig_macros g m passed sgs = Ok (passed', t) ->
  exists ns names, fresh passed (need sgs) = (passed', ns) /\ dpart t names /\
    Permutation names (flat_map (table_names m) sgs ++ flat_map (conv_names (n_DRV g)) ns).
Proof.
  intros g m sgs. induction sgs as [|sg r IH]; intros passed passed' t GO MO SS HO E.
  - injection E as <- <-. exists [], []. repeat split; auto using dp_nil.
  - cbn [sig_macros] in E.
    pose proof (mo_sigs m MO sg (SS sg (or_introl eq_refl))) as SO. pose proof (HO sg (or_introl eq_refl)) as HS.
    destruct (go_len g GO) as (_ & _ & _ & _ & G5 & _).
    pose proof (vt_dp m sg MO SO HS) as V.
    set (first := if s_simple sg || smem (s_name sg) passed then _ else _) in E.
    assert (exists p1 n1 t1, first = Ok (p1, t1) /\ fresh passed (need [sg]) = (p1, n1) /\ dpart t1 (flat_map (conv_names (n_DRV g)) n1))
      as (p1 & n1 & t1 & EF & F1 & F2).
    { subst first. unfold need. cbn [filter]. destruct (s_simple sg) eqn:SI; cbn [orb negb map fresh] in *.
      - exists passed, [], []. repeat split; auto using dp_nil.
      - destruct (smem (s_name sg) passed) eqn:SM.
        + exists passed, [], []. repeat split; auto using dp_nil.
        + destruct (print_physical_to_raw sg (n_DRV g)) as [tx| |] eqn:EP; cbn [bind] in E; try discriminate.
          destruct (ptr_part sg (n_DRV g) tx EP (no_nl_ident' _ (go_DRV g GO)) (no_nl_ident' _ (ok_name _ _ SO)) G5 (ok_name_len _ _ SO)
                     (proj1 (hs_nums _ HS)) (proj2 (hs_nums _ HS))) as (a & b & c & C1 & C2).
          assert (C3 : part [append_s tx] (conv_lines (n_DRV g) sg (a, b, c))) by exact C2.
          exists (s_name sg :: passed), [s_name sg], [append_s tx]. split; [reflexivity|]. split; [reflexivity|].
          cbn [flat_map]. rewrite List.app_nil_r. apply (conv_dp _ _ (a, b, c)); auto; [apply GO|apply SO]. }
    rewrite EF in E. cbn [bind] in E.
    destruct (sig_macros g m p1 r) as [[p2 ts]| |] eqn:ER; cbn [bind] in E; try discriminate. injection E as <- <-.
    destruct (IH p1 p2 ts GO MO (fun q I => SS q (or_intror I)) (fun q I => HO q (or_intror I)) ER) as (ns & names & I1 & I2 & I3).
    exists (n1 ++ ns)%list, (flat_map (conv_names (n_DRV g)) n1 ++ (table_names m sg ++ names))%list. split; [|split].
    + assert (X : need (sg :: r) = (need [sg] ++ need r)%list).
      { unfold need. cbn [filter]. now destruct (s_simple sg). }
      rewrite X, fresh_app, F1, I1. reflexivity.
    + apply dp_app; [exact F2|]. now apply dp_app.
    + cbn [flat_map]. rewrite flat_map_app, I3.
      set (a := flat_map _ n1). set (b := table_names m sg). set (c := flat_map (table_names m) r). set (e := flat_map _ ns).
      rewrite <- (List.app_assoc b c). etransitivity; [apply Permutation_app_comm|]. rewrite <- !List.app_assoc.
      apply Permutation_app_head, Permutation_app_head, Permutation_app_comm.
Qed.

(** ** Messages *)

Definition struct_pieces (g : gendesc) (m : message) (fb fp : list string) : list string :=
  ([nls 1; L "typedef struct"; L "{"; L ("#ifdef " ++ n_usebits g); nls 1]
          ++ fb ++ [L "#else"; nls 1] ++ fp
          ++ [L ("#endif // " ++ n_usebits g); nls 1;
              L ("#ifdef " ++ n_usemon g); nls 1; L "  FrameMonitor_t mon1;"; nls 1;
              L ("#endif // " ++ n_usemon g); nls 1;
              L ("} " ++ g_name m ++ "_t;"); nls 1])%list.
Lemma struct_dp : forall g m fb fp, gen_ok g -> is_ident (n_usebits g) = true -> (String.length (n_usebits g) <= 1100)%nat -> hmsg_ok m ->
  dpart fb [] -> dpart fp [] -> dpart (struct_pieces g m fb fp) [].
Proof.
  intros g m fb fp GO UB LB HM BB BP. unfold struct_pieces.
  pose proof (no_nl_ident' _ (go_mon g GO)) as NM. pose proof (no_nl_ident' _ UB) as NB. destruct (go_len g GO) as (_ & G2 & _).
  pose proof (no_nl_ident' _ (mo_name m (hk_msg _ HM))) as N1. pose proof (mo_name_len m (hk_msg _ HM)) as L1.
  apply dp_app0.
  { apply dp_cons0; [apply dp_nls|]. apply dp_cons0; [dlit|]. apply dp_cons0; [dlit|].
    apply dp_cons0; [apply dp_opens; [raw|now apply opens_ifdef]|]. apply dp_nls. }
  apply dp_app0; [exact BB|]. apply dp_app0.
  { apply dp_cons0; [|apply dp_nls]. eapply dp_dir; [rawlit|reflexivity|discriminate]. }
  apply dp_app0; [exact BP|].
  apply dp_cons0; [eapply dp_dir; [raw|apply endif_tail|discriminate]|]. apply dp_cons0; [apply dp_nls|].
  apply dp_cons0; [apply dp_opens; [raw|apply opens_ifdef, GO]|]. apply dp_cons0; [apply dp_nls|]. apply dp_cons0; [dlit|].
  apply dp_cons0; [apply dp_nls|]. apply dp_cons0; [eapply dp_dir; [raw|apply endif_tail|discriminate]|]. apply dp_cons0; [apply dp_nls|].
  apply dp_cons0; [|apply dp_nls]. apply dp_plain; [raw|reflexivity].
Qed.

Lemma msg_header_dp : forall g m passed passed' t, src_ok g "" -> is_ident (n_usebits g) = true ->
  (String.length (n_usebits g) <= 1100)%nat -> hmsg_ok m -> msg_header g passed m = Ok (passed', t) ->
  exists ns names, fresh passed (scaled m) = (passed', ns) /\ dpart t names /\
    Permutation names ((id_names m ++ entry_names m) ++ flat_map (conv_names (n_DRV g)) ns).
Proof.
  intros g m passed passed' t SG UB LB HM E. pose proof (so_gen _ _ SG) as GO.
  pose proof (consts_dp m (hk_msg _ HM)) as C.
  unfold msg_header, scaled, entry_names in *. destruct (g_notempty m); cbn [negb] in E.
  2: { apply Ok_inj in E; apply pair_equal_spec in E; destruct E as [<- <-]. exists [], (id_names m). split; [reflexivity|].
       split; [|cbn [flat_map]; now rewrite !List.app_nil_r]. rewrite <- (List.app_nil_r (id_names m)). apply dp_app; [exact C|apply dp_nls]. }
  destruct (sig_macros g m passed (g_sigs m)) as [[p2 ms]| |] eqn:EM; cbn [bind] in E; try discriminate.
  destruct (macros_dp g m (g_sigs m) passed p2 ms GO (hk_msg _ HM) (fun sg I => I) (hk_sigs _ HM) EM) as (ns & names & M1 & M2 & M3).
  destruct (struct_fields g m true _) as [fb| |] eqn:EB; cbn [bind] in E; try discriminate.
  destruct (struct_fields g m false _) as [fp| |] eqn:EP; cbn [bind] in E; try discriminate. apply Ok_inj in E; apply pair_equal_spec in E; destruct E as [<- <-].
  pose proof (fields_dp _ _ _ _ _ GO HM EB) as BB. pose proof (fields_dp _ _ _ _ _ GO HM EP) as BP.
  exists ns, (id_names m ++ names ++ [])%list. split; [exact M1|]. split.
  2: { rewrite List.app_nil_r. unfold table_names in M3. rewrite M3. now rewrite List.app_assoc. }
  apply dp_app; [exact C|]. apply dp_app; [exact M2|].
  apply (struct_dp g m fb fp); auto.
Qed.

Lemma msg_headers_dp : forall g xs passed t, head_ok g -> (forall x, In x xs -> hmsg_ok (x_msg x)) -> msg_headers g passed xs = Ok t ->
  exists p ns names, fresh passed (flat_map (fun x => scaled (x_msg x)) xs) = (p, ns) /\ dpart t names /\
    Permutation names (flat_map (fun x => id_names (x_msg x) ++ entry_names (x_msg x))%list xs ++ flat_map (conv_names (n_DRV g)) ns).
Proof.
  intros g. induction xs as [|x r IH]; intros passed t HD OK E.
  - injection E as <-. exists passed, [], []. repeat split; auto using dp_nil.
  - cbn [msg_headers] in E. destruct (msg_header g passed (x_msg x)) as [[p1 t1]| |] eqn:EH; cbn [bind] in E; try discriminate.
    destruct (msg_headers g p1 r) as [ts| |] eqn:ER; cbn [bind] in E; try discriminate. apply Ok_inj in E. subst t.
    destruct (msg_header_dp g (x_msg x) passed p1 t1 (hd_src _ HD) (proj1 (hd_bits _ HD)) (proj2 (hd_bits _ HD)) (OK x (or_introl eq_refl)) EH)
      as (n1 & m1 & A1 & A2 & A3).
    destruct (IH p1 ts HD (fun y I => OK y (or_intror I)) ER) as (p & n2 & m2 & B1 & B2 & B3).
    exists p, (n1 ++ n2)%list, (m1 ++ m2)%list. split; [|split].
    + cbn [flat_map]. rewrite fresh_app, A1, B1. reflexivity.
    + now apply dp_app.
    + cbn [flat_map]. rewrite A3, B3, flat_map_app.
      set (a := (id_names (x_msg x) ++ entry_names (x_msg x))%list). set (b := flat_map _ n1). set (c := flat_map _ r). set (e := flat_map _ n2).
      rewrite <- !List.app_assoc. apply Permutation_app_head. rewrite !List.app_assoc. apply Permutation_app_tail, Permutation_app_comm.
Qed.

(** ** The whole header *)

Lemma head_dp : forall g mx, head_ok g -> (0 <= mx < 2 ^ 32)%Z ->
  dpart (header_top g mx) [n_verhi g; n_verlow g; maxdlc_name g; validate_name g; initial_name g].
Proof.
  intros g mx [SO [UB LB] [VH VL]] MX. pose proof (so_gen _ _ SO) as GO.
  destruct (go_len g GO) as (G1 & G2 & G3 & G4 & G5 & G6). destruct (so_len _ _ SO) as (S1 & S2 & S3 & S4 & S5 & S6 & S7).
  pose proof (no_nl_ident' _ (go_DRV g GO)) as ND. pose proof (no_nl_ident _ (go_drv g GO)) as Nd.
  pose proof (no_nl_ident' _ (go_mon g GO)) as NM. pose proof (no_nl_ident' _ VH) as NH. pose proof (no_nl_ident' _ VL) as NL.
  pose proof (pu_len mx ltac:(lia)) as LM.
  assert (IDR : forall x, all_chars is_idchar x = true -> is_ident (n_DRV g ++ x) = true) by (intros; apply ident_prefix; auto; apply GO).
  assert (E : dpart [L "#endif"] []) by (eapply dp_dir; [rawlit|reflexivity|discriminate]).
  unfold header_top.
  apply dp_cons0; [apply dp_info, SO|]. apply dp_cons0; [apply dp_info, SO|].
  apply dp_cons0; [eapply dp_dir; [rawlit|reflexivity|discriminate]|]. apply dp_cons0; [apply dp_nls|].
  apply dp_cons0; [apply dp_cpp|]. apply dp_cons0; [apply dp_nls|].
  apply dp_cons0; [eapply dp_dir; [rawlit|reflexivity|discriminate]|]. apply dp_cons0; [apply dp_nls|]. apply dp_cons0; [dlit|].
  apply (dp_cons _ [_]).
  { apply dp_def; [raw|now apply ident_head|]. now apply (define_name _ " "). }
  apply (dp_cons _ [_]).
  { apply dp_def; [raw|now apply ident_head|]. now apply (define_name _ " "). }
  apply dp_cons0; [apply dp_nls|]. apply dp_cons0; [dlit|].
  apply dp_cons0; [apply dp_skip; [unfold dq; raw|apply skip_include]|]. apply dp_cons0; [apply dp_nls|].
  apply dp_cons0; [apply dp_opens; [raw|apply opens_ifdef, GO]|].
  apply dp_cons0; [eexists; split; [apply part_full, L_full|vm_compute; reflexivity]|].
  apply dp_cons0; [eapply dp_dir; [raw|apply endif_tail|discriminate]|]. apply dp_cons0; [apply dp_nls|].
  do 4 (apply dp_cons0; [dlit|]).
  apply dp_cons0; [apply dp_opens; [unfold maxdlc_name; raw|apply opens_ifndef; now apply IDR]|]. apply dp_cons0; [dlit|].
  apply (dp_cons _ [_]).
  { apply dp_def; [unfold maxdlc_name; raw|apply ident_head; now apply IDR|]. apply (define_name _ " "); [now apply IDR|reflexivity]. }
  apply dp_cons0; [exact E|]. apply dp_cons0; [apply dp_nls|]. apply dp_cons0; [dlit|].
  apply (dp_cons _ [_]).
  { apply dp_def; [unfold validate_name, maxdlc_name; raw|apply ident_head; now apply IDR|]. apply (define_name _ "("); [now apply IDR|reflexivity]. }
  apply dp_cons0; [apply dp_nls|]. do 2 (apply dp_cons0; [dlit|]).
  apply dp_cons0; [apply dp_opens; [unfold initial_name; raw|apply opens_ifndef; now apply IDR]|].
  apply (dp_cons _ [_]).
  { apply dp_def; [unfold initial_name; raw|apply ident_head; now apply IDR|]. apply (define_name _ " "); [now apply IDR|reflexivity]. }
  apply dp_cons0; [exact E|apply dp_nls].
Qed.

Lemma protos_dp : forall g m, src_ok g "" -> msg_ok m -> dpart (msg_prototypes g m) [].
Proof.
  intros g m SO MO. unfold msg_prototypes. destruct (negb (g_notempty m)); [apply dp_nil|].
  destruct (so_len _ _ SO) as (S1 & S2 & _). pose proof (no_nl_ident' _ (so_struct _ _ SO)) as NS.
  pose proof (no_nl_ident _ (so_orig _ _ SO)) as NO.
  pose proof (no_nl_ident' _ (mo_name m MO)) as N1. pose proof (mo_name_len m MO) as L1.
  apply dp_cons0; [apply dp_plain; [raw|reflexivity]|].
  apply dp_cons0; [apply dp_opens; [raw|apply opens_ifdef, SO]|]. apply dp_cons0; [apply dp_plain; [raw|reflexivity]|].
  apply dp_cons0; [eapply dp_dir; [rawlit|reflexivity|discriminate]|]. apply dp_cons0; [apply dp_plain; [raw|reflexivity]|].
  apply dp_cons0; [eapply dp_dir; [raw|apply endif_tail|discriminate]|apply dp_nls].
Qed.

Lemma configure_names : forall drv out c i hi low nc ni nf, (String.length drv <= 900)%nat ->
  let g := st_g (configure drv out c i hi low nc ni nf) in
  n_verhi g = "VER_" ++ n_DRV g ++ "_MAJ" /\ n_verlow g = "VER_" ++ n_DRV g ++ "_MIN" /\ n_DRV g = str_toupper drv.
Proof.
  intros drv out c i hi low nc ni nf LN. assert (LU : String.length (str_toupper drv) = String.length drv) by apply len_map.
  unfold configure. cbn [st_g n_verhi n_verlow n_DRV]. now rewrite !tmpb_short by (rewrite !app_len, ?LU; cbn [String.length]; lia).
Qed.

Theorem driver_names : forall drv g d h c, driver drv g d h c -> header_ok d ->
  Permutation (defines (lines h)) (header_names (str_toupper drv) d).
Proof.
  intros drv g d h c [RUN [DI DL] MS ND] HO.
  destruct RUN as (srt & out & date & dbc & hi & low & nc & ni & nf & rest & SR & DT & DB & HI & LO & G & GM).
  set (s := configure drv out (common_info date) (driver_info dbc) hi low nc ni nf) in *.
  assert (EO : forall m, In m (d_msgs d) -> emit_ok m).
  { intros m I. destruct (MS m I) as (A & B & C). constructor; auto. now apply short_few. }
  destruct (map_res_loaded (d_msgs d)) as (xs0 & LM & F0).
  { intros m I. split; apply (EO m I). }
  unfold generate_main in GM. rewrite load_messages_map, LM in GM. cbn [bind] in GM.
  set (xs := srt ciexpr (fun x => g_id (x_msg x)) xs0) in *.
  assert (PX : Permutation xs xs0) by apply SR.
  destruct (loaded_self _ _ F0) as [FS EM].
  assert (PM : Permutation (map x_msg xs) (d_msgs d)) by (rewrite EM; now apply Permutation_map).
  assert (HK : forall x, In x xs -> hmsg_ok (x_msg x)).
  { intros x I. assert (IM : In (x_msg x) (d_msgs d)) by (eapply Permutation_in; [exact PM|now apply in_map]).
    constructor; [apply (MS _ IM)|]. intros sg S. eapply ho_sigs; eauto. }
  pose proof (configure_head drv out date dbc hi low nc ni nf DI DL DT DB HI LO) as HD. fold s in HD.
  destruct (configure_names drv out (common_info date) (driver_info dbc) hi low nc ni nf DL) as (VH & VL & DD). fold s in VH, VL, DD.
  rewrite <- G in *.
  destruct (main_header g (d_maxdlc d) xs) as [hd| |] eqn:EH; cbn [bind] in GM; try discriminate.
  destruct (main_source g (f_coreh (st_f s)) xs) as [sc| |]; cbn [bind] in GM; try discriminate.
  cbn [List.app] in GM. injection GM as <- _ _.
  unfold main_header in EH. destruct (msg_headers g [] xs) as [t| |] eqn:ET; cbn [bind] in EH; try discriminate. apply Ok_inj in EH. subst hd.
  destruct (msg_headers_dp g xs [] t HD HK ET) as (p & ns & names & N1 & N2 & N3).
  pose proof (head_dp g (d_maxdlc d) HD ltac:(pose proof (ho_dlc d HO); lia)) as HT.
  assert (B : dpart ([L "// Function signatures"; nls 1] ++ List.concat (map (fun x => msg_prototypes g (x_msg x)) xs) ++ [L cpp_close]) []).
  { apply dp_app0; [apply dp_cons0; [dlit|apply dp_nls]|]. apply dp_app0; [|apply dp_cpp].
    apply dp_concat0. apply Forall_map. apply Forall_forall. intros x I. apply protos_dp; [apply HD|apply HK; auto]. }
  destruct (dp_app _ _ _ _ HT (dp_app _ _ _ _ N2 B)) as (ls & P & E).
  rewrite (part_lines _ _ P), E. rewrite List.app_nil_r. unfold header_names. rewrite <- DD, <- VH, <- VL.
  change (n_DRV g ++ "_MAX_DLC_VALUE") with (maxdlc_name g). change (n_DRV g ++ "_VALIDATE_DLC") with (validate_name g).
  change (n_DRV g ++ "_INITIAL_BYTE_VALUE") with (initial_name g).
  apply Permutation_app_head. rewrite N3. apply Permutation_app.
  - rewrite <- PM. rewrite !flat_map_concat_map, map_map. reflexivity.
  - rewrite (fresh_nodup _ _ _ N1). assert (X : flat_map (fun x => scaled (x_msg x)) xs = flat_map scaled (map x_msg xs)).
    { now rewrite !flat_map_concat_map, map_map. }
    rewrite X. apply Permutation_flat_map. apply NoDup_Permutation; try apply NoDup_nodup.
    intros y. rewrite !nodup_In, !in_flat_map. split; intros (m & I & J); exists m; (split; [|exact J]).
    + eapply Permutation_in; eauto.
    + eapply Permutation_in; [apply Permutation_sym|]; eauto.
Qed.
