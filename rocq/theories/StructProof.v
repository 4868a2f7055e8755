(** The struct declaration of a message in the emitted header. *)

From Coq Require Import ZArith NArith List String Ascii Bool Lia ZifyBool Permutation.
From Verif Require Import Base Dbl CSyntax CSem CRun Types Formatter SigPrinter Writer Settings
  MainGen App CodecSpec MsgSpec LexLemmas BitLemmas CSemLemmas Chunks UnpackProof PPProof BodyLemmas
  UnpackBody UnpackFun PackProof PackBody PackFun SourceFun DriverSpec DriverProof HeaderSpec HeaderProof HeaderRun CodecEnv StructSpec.
Import ListNotations.
Open Scope string_scope.

(** ** Lines without definitions: active tokens *)

Definition mkst (M : list (string * macro)) (k : list bool) (out : list string) : ppstate := {| pp_macros := M; pp_stack := k; pp_out := out |}.
Definition otoks (out : list string) : list tok := List.concat (map lex (rev out)).
Definition quiet (ls : list string) : Prop := forall s, pp_active s = false -> runs s ls = s.
Definition yields (M : list (string * macro)) (ls : list string) (ts : list tok) : Prop :=
  quiet ls /\ forall k out, forallb id k = true -> exists out', runs (mkst M k out) ls = mkst M k out' /\ otoks out' = (otoks out ++ ts)%list.

Lemma yields_nil : forall M, yields M [] [].
Proof. intros M. split; [intros s _; reflexivity|]. intros k out _. exists out. now rewrite List.app_nil_r. Qed.
Lemma yields_app : forall M a b ta tb, yields M a ta -> yields M b tb -> yields M (a ++ b) (ta ++ tb).
Proof.
  intros M a b ta tb [QA A] [QB B]. split.
  - intros s I. rewrite runs_app, QA, QB; auto.
  - intros k out K. destruct (A k out K) as (o1 & R1 & T1). destruct (B k o1 K) as (o2 & R2 & T2).
    exists o2. rewrite runs_app, R1, R2. split; [reflexivity|]. now rewrite T2, T1, List.app_assoc.
Qed.
Lemma yields_line : forall M l, directive l = None -> yields M [l] (lex l).
Proof.
  intros M l D. split.
  - intros s I. rewrite runs_one. unfold pp_line. now rewrite D, I.
  - intros k out K. exists (l :: out). rewrite runs_one. unfold pp_line. rewrite D. unfold pp_active. cbn [pp_stack mkst]. rewrite K.
    split; [reflexivity|]. unfold otoks. cbn [rev]. rewrite map_app, List.concat_app. cbn [map List.concat]. now rewrite List.app_nil_r.
Qed.
Lemma yields_silent : forall M ls, Forall (fun l => directive l = None /\ lex l = []) ls -> yields M ls [].
Proof.
  intros M ls F. induction F as [|l ls [D X] F IH]; [apply yields_nil|].
  apply (yields_app M [l] ls [] []); [|exact IH]. rewrite <- X. now apply yields_line.
Qed.

Lemma stack_off : forall M k out b, pp_active (mkst M k out) = false -> pp_active (mkst M (b :: k) out) = false.
Proof. intros M k out b H. unfold pp_active in *. cbn [mkst pp_stack forallb] in *. rewrite H. apply andb_false_r. Qed.
Lemma line_ifdef : forall x M k out, is_ident x = true -> pp_line (mkst M k out) ("#ifdef " ++ x) = mkst M (defined x M :: k) out.
Proof. intros x M k out I. unfold pp_line. rewrite directive_ifdef by exact I. cbn [String.eqb Ascii.eqb Bool.eqb]. rewrite pp_name_ident by exact I. reflexivity. Qed.
Lemma line_else : forall m M b k out, dword m = Some "else" -> pp_line (mkst M (b :: k) out) m = mkst M (negb b :: k) out.
Proof. intros m M b k out D. unfold dword in D. unfold pp_line. destruct (directive m) as [[d r]|]; [|discriminate]. assert (d = "else") as -> by congruence. reflexivity. Qed.
Lemma line_endif : forall m M b k out, dword m = Some "endif" -> pp_line (mkst M (b :: k) out) m = mkst M k out.
Proof. intros m M b k out D. unfold dword in D. unfold pp_line. destruct (directive m) as [[d r]|]; [|discriminate]. assert (d = "endif") as -> by congruence. reflexivity. Qed.

Lemma yields_if_else : forall M x a m b e ta tb, is_ident x = true -> dword m = Some "else" -> dword e = Some "endif" ->
  yields M a ta -> yields M b tb -> yields M (("#ifdef " ++ x)%string :: a ++ m :: b ++ [e]) (if defined x M then ta else tb).
Proof.
  intros M x a m b e ta tb I EM EE [QA A] [QB B].
  assert (RUN : forall s, runs s (("#ifdef " ++ x)%string :: a ++ m :: b ++ [e])%list = pp_line (runs (pp_line (runs (pp_line s ("#ifdef " ++ x)%string) a) m) b) e).
  { intros s. change (runs s (("#ifdef " ++ x)%string :: a ++ m :: b ++ [e])%list) with (runs (pp_line s ("#ifdef " ++ x)%string) (a ++ m :: b ++ [e])).
    rewrite runs_app. change (m :: b ++ [e])%list with ([m] ++ b ++ [e])%list. now rewrite !runs_app, !runs_one. }
  split.
  - intros [M0 k out] O. fold (mkst M0 k out) in *. rewrite RUN, line_ifdef by exact I.
    rewrite QA by now apply stack_off. rewrite (line_else m) by exact EM. rewrite QB by now apply stack_off. now apply line_endif.
  - intros k out K. rewrite RUN, line_ifdef by exact I. destruct (defined x M) eqn:D.
    + destruct (A (true :: k) out) as (o & R & T); [exact K|]. exists o. rewrite R, (line_else m) by exact EM.
      rewrite QB by reflexivity. rewrite (line_endif e) by exact EE. auto.
    + rewrite QA by reflexivity. rewrite (line_else m) by exact EM. destruct (B (true :: k) out) as (o & R & T); [exact K|].
      exists o. cbn [negb]. rewrite R, (line_endif e) by exact EE. auto.
Qed.
Lemma yields_if : forall M x a e ta, is_ident x = true -> dword e = Some "endif" ->
  yields M a ta -> yields M (("#ifdef " ++ x)%string :: a ++ [e]) (if defined x M then ta else []).
Proof.
  intros M x a e ta I EE [QA A].
  assert (RUN : forall s, runs s (("#ifdef " ++ x)%string :: a ++ [e])%list = pp_line (runs (pp_line s ("#ifdef " ++ x)%string) a) e).
  { intros s. change (runs s (("#ifdef " ++ x)%string :: a ++ [e])%list) with (runs (pp_line s ("#ifdef " ++ x)%string) (a ++ [e])). now rewrite runs_app, runs_one. }
  split.
  - intros [M0 k out] O. fold (mkst M0 k out) in *. rewrite RUN, line_ifdef by exact I. rewrite QA by now apply stack_off. now apply line_endif.
  - intros k out K. rewrite RUN, line_ifdef by exact I. destruct (defined x M) eqn:D.
    + destruct (A (true :: k) out) as (o & R & T); [exact K|]. exists o. rewrite R, (line_endif e) by exact EE. auto.
    + rewrite QA by reflexivity. rewrite (line_endif e) by exact EE. exists out. now rewrite List.app_nil_r.
Qed.

(** ** The same for pieces of the text *)

Definition ypart (M : list (string * macro)) (ps : list string) (ts : list tok) : Prop := exists ls, part ps ls /\ yields M ls ts.
Lemma yp_nil : forall M, ypart M [] [].
Proof. intros M. exists []. split; [apply part_nil|apply yields_nil]. Qed.
Lemma yp_app : forall M a b ta tb, ypart M a ta -> ypart M b tb -> ypart M (a ++ b) (ta ++ tb).
Proof. intros M a b ta tb (la & A & YA) (lb & B & YB). exists (la ++ lb)%list. split; [now apply part_app|now apply yields_app]. Qed.
Lemma yp_cons : forall M p b ta tb, ypart M [p] ta -> ypart M b tb -> ypart M (p :: b) (ta ++ tb).
Proof. intros M p b. exact (yp_app M [p] b). Qed.
Lemma yp_line : forall M s, raw_ok s -> directive s = None -> ypart M [L s] (lex s).
Proof. intros M s R D. exists [s]. split; [now apply part_raw|now apply yields_line]. Qed.
Lemma yp_nls : forall M n, ypart M [nls n] [].
Proof.
  intros M n. exists (repeat "" n). split.
  - rewrite <- lines_nls. apply part_full, nls_full.
  - apply yields_silent. apply Forall_forall. intros l I. apply repeat_spec in I. subst l. split; reflexivity.
Qed.

Lemma yp_if : forall M x a e ta, is_ident x = true -> raw_ok ("#ifdef " ++ x) -> raw_ok e -> dword e = Some "endif" ->
  ypart M a ta -> ypart M (L ("#ifdef " ++ x) :: a ++ [L e]) (if defined x M then ta else []).
Proof.
  intros M x a e ta I R1 R2 E (la & A & YA). exists (("#ifdef " ++ x)%string :: la ++ [e])%list. split; [|now apply yields_if].
  apply (part_app [L ("#ifdef " ++ x)] [("#ifdef " ++ x)%string] (a ++ [L e]) (la ++ [e])); [now apply part_raw|].
  apply part_app; [auto|now apply part_raw].
Qed.
Lemma yp_if_else : forall M x a m b e ta tb, is_ident x = true -> raw_ok ("#ifdef " ++ x) -> raw_ok m -> raw_ok e -> dword m = Some "else" -> dword e = Some "endif" ->
  ypart M a ta -> ypart M b tb -> ypart M (L ("#ifdef " ++ x) :: a ++ L m :: b ++ [L e]) (if defined x M then ta else tb).
Proof.
  intros M x a m b e ta tb I R1 R2 R3 EM E (la & A & YA) (lb & B & YB). exists (("#ifdef " ++ x)%string :: la ++ m :: lb ++ [e])%list.
  split; [|now apply yields_if_else].
  apply (part_app [L ("#ifdef " ++ x)] [("#ifdef " ++ x)%string] (a ++ L m :: b ++ [L e]) (la ++ m :: lb ++ [e])); [now apply part_raw|].
  apply part_app; [auto|]. apply (part_app [L m] [m] (b ++ [L e]) (lb ++ [e])); [now apply part_raw|].
  apply part_app; [auto|now apply part_raw].
Qed.

(** ** Comments *)

Lemma nl_rev : forall s, no_nl s = true -> no_nl (rev_string s) = true.
Proof.
  induction s as [|c s IH]; intros N; [reflexivity|]. rewrite rev_cons, no_nl_app. unfold no_nl in N. cbn [has_char] in N.
  rewrite negb_orb in N. apply andb_true_iff in N. destruct N as [N1 N2]. rewrite IH by exact N2. unfold no_nl. cbn [has_char]. now rewrite orb_false_r, N1.
Qed.
Lemma lines_aux_nonl : forall t racc, no_nl racc = true -> Forall (fun l => no_nl l = true) (lines_aux racc t).
Proof.
  induction t as [|c t IH]; intros racc N; cbn [lines_aux].
  - destruct racc; constructor; [now apply nl_rev|constructor].
  - destruct (Ascii.eqb c NL) eqn:E; [constructor; [now apply nl_rev|now apply IH]|]. apply IH.
    unfold no_nl in *. cbn [has_char]. rewrite negb_orb, N, Ascii.eqb_sym, E. reflexivity.
Qed.
Lemma lines_nonl : forall t, Forall (fun l => no_nl l = true) (lines t).
Proof. intros t. now apply lines_aux_nonl. Qed.

Lemma yp_comment : forall M p c, p = "// " \/ p = "  // " -> ypart M [append_s (p ++ replace_nl p c)] [].
Proof.
  intros M p c P. eexists. split; [apply part_full, append_s_full|]. apply yields_silent.
  assert (N : no_nl p = true) by (destruct P as [->| ->]; reflexivity).
  pose proof (comment_lines p c N) as F. pose proof (lines_nonl (append_s (p ++ replace_nl p c))) as G.
  rewrite Forall_forall in *. intros l I. destruct (F l I) as [r ->]. specialize (G _ I). rewrite no_nl_app in G.
  apply andb_true_iff in G. destruct G as [_ G].
  destruct P as [->| ->]; (split; [reflexivity|]); unfold lex; cbn [String.append lex_from]; exact (lex_in_comment r G).
Qed.

(** ** Members *)

Definition toks_of (d : mdecl) : list tok :=
  (TId (md_type d) :: TId (md_name d) :: match md_bits d with Some w => [TP PColon; TInt I32 w; TP PSemi] | None => [TP PSemi] end)%list.
Lemma parse_toks : forall ds, parse_members (List.concat (map toks_of ds)) = Some ds.
Proof.
  induction ds as [|[t x b] ds IH]; [reflexivity|]. cbn [map List.concat]. unfold toks_of at 1. cbn [md_type md_name md_bits].
  destruct b as [w|]; cbn [List.app parse_members]; now rewrite IH.
Qed.

Lemma type_ident : forall t, is_ident (print_type t) = true.
Proof. intros []; reflexivity. Qed.
Lemma lex_repeat : forall n r, lex_from LIdle (repeat_char n " " ++ r) = lex_from LIdle r.
Proof. induction n as [|n IH]; intros r; [reflexivity|]. cbn [repeat_char String.append]. now rewrite lex_space. Qed.

Lemma decl_toks : forall sg bits w t r, field_decl sg bits w = Ok t -> is_ident (s_name sg) = true -> (0 <= s_len sg)%Z -> no_nl r = true ->
  lex (t ++ " // " ++ r) = toks_of (raw_member bits (s_name sg) sg).
Proof.
  intros sg bits w t r E I LN N. unfold field_decl in E. cbv zeta in E. destruct (_ <? _)%nat; [discriminate|]. apply Ok_inj in E. subst t.
  set (n := (w + 16 - _)%nat). unfold toks_of, raw_member. cbn [md_type md_name md_bits].
  assert (TAIL : forall s, lex_from LIdle (";" ++ (repeat_char n " " ++ " ") ++ " // " ++ s) = TP PSemi :: lex_from LComment (" " ++ s)).
  { intros s. cbn [String.append]. rewrite lex_idle_solo with (q := PSemi) by reflexivity. f_equal. rewrite !app_assoc, lex_repeat. reflexivity. }
  assert (X : lex_from LComment (" " ++ r) = []) by (apply lex_in_comment; rewrite no_nl_app; exact N).
  assert (W : forall s, lex_from LIdle ("  " ++ print_type (s_typero sg) ++ " " ++ s_name sg ++ String " " s) =
                        TId (print_type (s_typero sg)) :: TId (s_name sg) :: lex_from LIdle (String " " s)).
  { intros s. cbn [String.append]. rewrite !lex_space. rewrite lex_ident by (try apply type_ident; reflexivity). rewrite lex_space.
    now rewrite lex_ident by auto. }
  assert (W2 : forall s, lex_from LIdle ("  " ++ print_type (s_typero sg) ++ " " ++ s_name sg ++ String ";" s) =
                        TId (print_type (s_typero sg)) :: TId (s_name sg) :: lex_from LIdle (String ";" s)).
  { intros s. cbn [String.append]. rewrite !lex_space. rewrite lex_ident by (try apply type_ident; reflexivity). rewrite lex_space.
    now rewrite lex_ident by auto. }
  unfold lex. destruct (bits && (s_len sg <? 8)%Z) eqn:B.
  - assert (LB : (s_len sg < 8)%Z) by lia.
    rewrite str_print_short by (unfold decZ; replace (s_len sg <? 0)%Z with false by lia; rewrite app_len; assert (String.length (dec (Z.to_N (s_len sg))) <= 1)%nat
      by (clear - LN LB; assert (s_len sg = 0 \/ s_len sg = 1 \/ s_len sg = 2 \/ s_len sg = 3 \/ s_len sg = 4 \/ s_len sg = 5 \/ s_len sg = 6 \/ s_len sg = 7)%Z as K by lia;
          destruct K as [K|[K|[K|[K|[K|[K|[K|K]]]]]]]; rewrite K; vm_compute; lia); cbn [String.length]; lia).
    transitivity (lex_from LIdle ("  " ++ print_type (s_typero sg) ++ " " ++ s_name sg ++ String " " (": " ++ decZ (s_len sg) ++ ";" ++ (repeat_char n " " ++ " ") ++ " // " ++ r))).
    { f_equal. rewrite !app_assoc. reflexivity. }
    rewrite W, lex_space. do 2 f_equal. cbn [String.append].
    rewrite (lex_op_blank ":" PColon) by reflexivity. f_equal. unfold decZ. replace (s_len sg <? 0)%Z with false by lia.
    rewrite lex_dec by (try reflexivity; lia). rewrite Z2N.id by lia. f_equal. specialize (TAIL r). cbn [String.append] in TAIL. rewrite TAIL.
    cbn [String.append] in X. now rewrite X.
  - transitivity (lex_from LIdle ("  " ++ print_type (s_typero sg) ++ " " ++ s_name sg ++ String ";" ((repeat_char n " " ++ " ") ++ " // " ++ r))).
    { f_equal. rewrite !app_assoc. reflexivity. }
    rewrite W2. do 2 f_equal. specialize (TAIL r). cbn [String.append] in TAIL |- *. rewrite TAIL. cbn [String.append] in X. now rewrite X.
Qed.

Lemma field_yp : forall M g bits w sg fs, sig_struct_field g bits w sg = Ok fs -> gen_ok g ->
  is_ident (s_name sg) = true -> (0 <= s_len sg)%Z -> no_nl (s_unit sg) = true ->
  (s_simple sg = false -> is_ident (s_namefloat sg) = true /\ (String.length (s_namefloat sg) <= 1010)%nat) ->
  ypart M fs (List.concat (map toks_of (sig_members bits (defined (n_usesigfloat g) M) (s_name sg) sg))).
Proof.
  intros M g bits w sg fs E GO IDN LN U P. pose proof (no_nl_ident' _ IDN) as N. unfold sig_struct_field in E.
  destruct (field_decl sg bits w) as [decl| |] eqn:ED; cbn [bind] in E; try discriminate.
  destruct (info_comment sg) as [info| |] eqn:EI; cbn [bind] in E; try discriminate. apply Ok_inj in E; rewrite <- E; clear E.
  destruct (decl_shape _ _ _ _ ED N) as [ND [dr DR]]. pose proof (info_nonl _ _ EI U) as NI.
  pose proof (no_nl_ident' _ (go_sigfloat g GO)) as NF. destruct (go_len g GO) as (G1 & _).
  unfold sig_members. cbn [map List.concat].
  change (toks_of (raw_member bits (s_name sg) sg) ++ List.concat (map toks_of (if defined (n_usesigfloat g) M && negb (s_simple sg) then [phys_member sg] else [])))%list
    with ([] ++ [] ++ [] ++ toks_of (raw_member bits (s_name sg) sg) ++ List.concat (map toks_of (if defined (n_usesigfloat g) M && negb (s_simple sg) then [phys_member sg] else [])))%list.
  apply yp_app; [|apply yp_app; [|apply yp_app; [|apply yp_app]]].
  - destruct (has_text (s_comment sg)); [|apply yp_nil]. apply yp_comment; auto.
  - destruct (has_text (s_valtext sg)); [|apply yp_nil]. apply yp_comment; auto.
  - assert (Y : forall s, raw_ok ("  // " ++ s) -> ypart M [L ("  // " ++ s)] []).
    { intros s R. replace (@nil tok) with (lex ("  // " ++ s)); [now apply yp_line|]. unfold lex. cbn [String.append lex_from].
      apply (lex_in_comment s). destruct R as [R _]. rewrite no_nl_app in R. now apply andb_true_iff in R. }
    destruct (s_mux sg); [apply yp_nil| |].
    + apply (Y "MULTIPLEX master signal"). apply raw_intro; [reflexivity|cbn; lia].
    + apply (Y "multiplex variable"). apply raw_intro; [reflexivity|cbn; lia].
  - change [decl; (" // " ++ (if s_signed sg then " [-]" else "    "))%string; text_f (" Bits=" ++ pd2 (s_len sg)); info; L ""; nls 1]
      with ([decl; (" // " ++ (if s_signed sg then " [-]" else "    "))%string; text_f (" Bits=" ++ pd2 (s_len sg)); info; L ""] ++ [nls 1])%list.
    rewrite <- (List.app_nil_r (toks_of _)). apply yp_app; [|apply yp_nls].
    set (a := if s_signed sg then " [-]" else "    "). set (b := text_f _).
    assert (X : no_nl a = true) by (subst a; destruct (s_signed sg); reflexivity).
    assert (Y : no_nl b = true).
    { subst b. apply cut_nonl. unfold pd2, pad_left. rewrite !no_nl_app, decZ_nonl, no_nl_repeat by discriminate. reflexivity. }
    exists [(decl ++ " // " ++ a ++ b ++ info)%string]. split.
    + intros r. cbn [sconcat]. change (L "") with (String NL ""). rewrite app_nil_r.
      transitivity (lines ((decl ++ " // " ++ a ++ b ++ info) ++ String NL r)); [now rewrite !app_assoc|].
      apply lines_line. rewrite !no_nl_app, ND, NI, X, Y. reflexivity.
    + rewrite <- (decl_toks sg bits w decl (a ++ b ++ info) ED IDN LN) by (rewrite !no_nl_app, X, Y, NI; reflexivity).
      apply yields_line. rewrite DR. reflexivity.
  - destruct (s_simple sg) eqn:SS; [rewrite andb_false_r; apply yp_nil|]. destruct (P eq_refl) as [P1 P2].
    pose proof (no_nl_ident' _ P1) as NP.
    match goal with |- ypart M [?i; ?x; ?e; ?n] _ => change [i; x; e; n] with ((i :: [x] ++ [e]) ++ [n])%list end.
    rewrite <- (List.app_nil_r (List.concat _)). apply yp_app; [|apply yp_nls].
    assert (EQ : List.concat (map toks_of (if defined (n_usesigfloat g) M && negb false then [phys_member sg] else [])) =
                 if defined (n_usesigfloat g) M then toks_of (phys_member sg) else []).
    { destruct (defined (n_usesigfloat g) M); [|reflexivity]. cbn [andb negb map List.concat]. apply List.app_nil_r. }
    rewrite EQ. clear EQ. apply yp_if; [apply GO|raw|raw|apply endif_tail|].
    unfold phys_member, toks_of. cbn [md_type md_name md_bits].
    assert (LX : forall ty, is_ident ty = true -> lex ("  " ++ ty ++ " " ++ s_namefloat sg ++ ";") = [TId ty; TId (s_namefloat sg); TP PSemi]).
    { intros ty T. unfold lex. cbn [String.append]. rewrite !lex_space, lex_ident, lex_space by (auto; reflexivity).
      rewrite lex_ident by (auto; reflexivity). reflexivity. }
    assert (Z : forall ty, is_ident ty = true -> no_nl ty = true -> (String.length ty <= 10)%nat ->
      ypart M [L ("  " ++ ty ++ " " ++ s_namefloat sg ++ ";")] [TId ty; TId (s_namefloat sg); TP PSemi]).
    { intros ty T NT LT. rewrite <- LX by exact T. apply yp_line; [raw|reflexivity]. }
    destruct (s_double sg); [apply (Z "sigfloat_t"); [reflexivity|reflexivity|cbn; lia]|].
    apply Z; [apply type_ident|apply no_nl_type|destruct (s_typephys sg); cbn; lia].
Qed.

Lemma fields_yp : forall M g m bits w fs, gen_ok g -> hmsg_ok m -> struct_fields g m bits w = Ok fs ->
  ypart M fs (List.concat (map toks_of (flat_map (fun sg => sig_members bits (defined (n_usesigfloat g) M) (s_name sg) sg) (g_sigs m) ++
    (if defined (n_useroll g) M then match roll_sig m with Some sg => sig_members bits (defined (n_usesigfloat g) M) (s_name sg ++ "_expt") sg | None => [] end else [])))).
Proof.
  intros M g m bits w fs GO [MO HO] E. unfold struct_fields in E. rewrite map_app, List.concat_app.
  destruct (map_res (sig_struct_field g bits w) (g_sigs m)) as [f| |] eqn:EF; cbn [bind] in E; try discriminate.
  assert (B1 : ypart M (List.concat f) (List.concat (map toks_of (flat_map (fun sg => sig_members bits (defined (n_usesigfloat g) M) (s_name sg) sg) (g_sigs m))))).
  { clear E.
    assert (X : forall l f, (forall sg, In sg l -> In sg (g_sigs m)) -> map_res (sig_struct_field g bits w) l = Ok f ->
      ypart M (List.concat f) (List.concat (map toks_of (flat_map (fun sg => sig_members bits (defined (n_usesigfloat g) M) (s_name sg) sg) l)))).
    { induction l as [|sg l IH]; intros f0 S EF0.
      - injection EF0 as <-. apply yp_nil.
      - cbn [map_res] in EF0. destruct (sig_struct_field g bits w sg) as [p| |] eqn:EP; cbn [bind] in EF0; try discriminate.
        destruct (map_res (sig_struct_field g bits w) l) as [q| |]; cbn [bind] in EF0; try discriminate. apply Ok_inj in EF0. subst f0.
        pose proof (mo_sigs m MO sg (S sg (or_introl eq_refl))) as SO. pose proof (HO sg (S sg (or_introl eq_refl))) as HS.
        cbn [List.concat flat_map]. rewrite map_app, List.concat_app.
        apply yp_app; [|apply IH; auto; intros; apply S; now right].
        pose proof (ok_len _ _ SO). apply (field_yp M g bits w sg p EP GO); [apply SO|lia|apply HS|apply SO]. }
    eapply X; eauto. }
  destruct (roll_sig m) as [rs|] eqn:ER.
  - destruct (sig_struct_field g bits w (expt_sig rs)) as [p| |] eqn:EP; cbn [bind] in E; try discriminate. apply Ok_inj in E. subst fs.
    assert (IR : In rs (g_sigs m)).
    { unfold roll_sig in ER. destruct (g_roll m); [|discriminate]. now apply nth_error_In in ER. }
    pose proof (mo_sigs m MO rs IR) as SO. pose proof (HO rs IR) as HS.
    apply yp_app; [auto|]. pose proof (no_nl_ident' _ (go_roll g GO)) as NR. destruct (go_len g GO) as (_ & _ & G3 & _).
    change ([L ("#ifdef " ++ n_useroll g); nls 1] ++ p ++ [L ("#endif // " ++ n_useroll g); nls 1])%list
      with (L ("#ifdef " ++ n_useroll g) :: nls 1 :: p ++ [L ("#endif // " ++ n_useroll g); nls 1])%list.
    replace (L ("#ifdef " ++ n_useroll g) :: nls 1 :: p ++ [L ("#endif // " ++ n_useroll g); nls 1])%list
      with ((L ("#ifdef " ++ n_useroll g) :: (nls 1 :: p) ++ [L ("#endif // " ++ n_useroll g)]) ++ [nls 1])%list
      by (cbn [List.app]; now rewrite <- List.app_assoc).
    match goal with |- ypart M _ ?t => rewrite <- (List.app_nil_r t) end. apply yp_app; [|apply yp_nls].
    assert (EQ : List.concat (map toks_of (if defined (n_useroll g) M then sig_members bits (defined (n_usesigfloat g) M) (s_name rs ++ "_expt") rs else [])) =
      if defined (n_useroll g) M then ([] ++ List.concat (map toks_of (sig_members bits (defined (n_usesigfloat g) M) (s_name rs ++ "_expt") rs)))%list else [])
      by (destruct (defined (n_useroll g) M); reflexivity).
    rewrite EQ. clear EQ. apply yp_if; [apply GO|raw|raw|apply endif_tail|].
    apply yp_cons; [apply yp_nls|]. pose proof (ok_len _ _ SO).
    apply (field_yp M g bits w (expt_sig rs) p EP GO); [|cbn [expt_sig s_len]; lia|apply HS|apply SO].
    cbn [s_name expt_sig]. apply ident_prefix; [apply SO|reflexivity].
  - cbn [bind] in E. apply Ok_inj in E. subst fs. apply yp_app; [auto|]. destruct (defined (n_useroll g) M); apply yp_nil.
Qed.

(** ** The whole struct *)

Definition struct_toks (msg : message) (ds : list mdecl) : list tok :=
  ([TId "typedef"; TId "struct"; TP PLbrace] ++ List.concat (map toks_of ds) ++ [TP PRbrace; TId (type_name msg); TP PSemi])%list.
Definition macro_members (M : list (string * macro)) (g : gendesc) (msg : message) : list mdecl :=
  all_members (defined (n_usebits g) M) (defined (n_usesigfloat g) M) (defined (n_useroll g) M) (defined (n_usemon g) M) msg.

(** at the top level of [ps] there is a piece that is the struct under all macros *)
Definition has_struct_text (g : gendesc) (msg : message) (ps : list string) : Prop :=
  exists p, at_top ps p /\ forall M, ypart M p (struct_toks msg (macro_members M g msg)).
Lemma hst_l : forall g msg a b, has_struct_text g msg a -> bpart b -> has_struct_text g msg (a ++ b).
Proof. intros g msg a b (p & T & Y) B. exists p. split; [now apply top_l|exact Y]. Qed.
Lemma hst_r : forall g msg a b, has_struct_text g msg a -> bpart b -> has_struct_text g msg (b ++ a).
Proof. intros g msg a b (p & T & Y) B. exists p. split; [now apply top_r|exact Y]. Qed.

Lemma struct_yp : forall g m M fb fp w, src_ok g "" -> is_ident (n_usebits g) = true ->
  (String.length (n_usebits g) <= 1100)%nat -> hmsg_ok m -> struct_fields g m true w = Ok fb -> struct_fields g m false w = Ok fp ->
  ypart M ([nls 1; L "typedef struct"; L "{"; L ("#ifdef " ++ n_usebits g); nls 1]
          ++ fb ++ [L "#else"; nls 1] ++ fp
          ++ [L ("#endif // " ++ n_usebits g); nls 1;
              L ("#ifdef " ++ n_usemon g); nls 1; L "  FrameMonitor_t mon1;"; nls 1;
              L ("#endif // " ++ n_usemon g); nls 1;
              L ("} " ++ g_name m ++ "_t;"); nls 1]) (struct_toks m (macro_members M g m)).
Proof.
  intros g m M fb fp w SG UB LB HM EB EP. pose proof (so_gen _ _ SG) as GO.
  pose proof (no_nl_ident' _ (go_mon g GO)) as NM. pose proof (no_nl_ident' _ UB) as NB. destruct (go_len g GO) as (_ & G2 & _).
  pose proof (no_nl_ident' _ (mo_name m (hk_msg _ HM))) as N1. pose proof (mo_name_len m (hk_msg _ HM)) as L1.
  match goal with |- ypart M (?a ++ ?b ++ ?c ++ ?d ++ ?e) _ =>
    replace (a ++ b ++ c ++ d ++ e)%list with
      ([nls 1; L "typedef struct"; L "{"] ++ (L ("#ifdef " ++ n_usebits g) :: (nls 1 :: fb) ++ L "#else" :: (nls 1 :: fp) ++ [L ("#endif // " ++ n_usebits g)])
        ++ [nls 1] ++ (L ("#ifdef " ++ n_usemon g) :: [nls 1; L "  FrameMonitor_t mon1;"; nls 1] ++ [L ("#endif // " ++ n_usemon g)])
        ++ [nls 1; L ("} " ++ g_name m ++ "_t;"); nls 1])%list end.
  2: { cbn [List.app]. rewrite <- !List.app_assoc. cbn [List.app]. do 5 f_equal. rewrite <- !List.app_assoc. reflexivity. }
  set (body := fun bits => (flat_map (fun sg => sig_members bits (defined (n_usesigfloat g) M) (s_name sg) sg) (g_sigs m) ++
    (if defined (n_useroll g) M then match roll_sig m with Some sg => sig_members bits (defined (n_usesigfloat g) M) (s_name sg ++ "_expt") sg | None => [] end else []))%list).
  assert (EQ : struct_toks m (macro_members M g m) =
    ([TId "typedef"; TId "struct"; TP PLbrace] ++ (if defined (n_usebits g) M then [] ++ List.concat (map toks_of (body true)) else [] ++ List.concat (map toks_of (body false))) ++
      [] ++ (if defined (n_usemon g) M then [TId "FrameMonitor_t"; TId "mon1"; TP PSemi] else []) ++ [TP PRbrace; TId (type_name m); TP PSemi])%list).
  { unfold struct_toks, macro_members, all_members. f_equal. rewrite List.app_assoc, map_app, List.concat_app. fold (body (defined (n_usebits g) M)).
    rewrite <- List.app_assoc. destruct (defined (n_usebits g) M), (defined (n_usemon g) M); reflexivity. }
  rewrite EQ. clear EQ.
  apply yp_app; [|apply yp_app; [|apply yp_app; [apply yp_nls|apply yp_app]]].
  - apply (yp_cons M _ _ [] [TId "typedef"; TId "struct"; TP PLbrace]); [apply yp_nls|].
    apply (yp_cons M _ _ [TId "typedef"; TId "struct"] [TP PLbrace]).
    + apply (yp_line M "typedef struct"); [apply raw_intro; [reflexivity|cbn; lia]|reflexivity].
    + apply (yp_line M "{"); [apply raw_intro; [reflexivity|cbn; lia]|reflexivity].
  - apply yp_if_else; [exact UB|raw|apply raw_intro; [reflexivity|cbn; lia]|raw|reflexivity|apply endif_tail| |].
    + apply yp_cons; [apply yp_nls|]. eapply fields_yp; eauto.
    + apply yp_cons; [apply yp_nls|]. eapply fields_yp; eauto.
  - apply yp_if; [apply GO|raw|raw|apply endif_tail|].
    apply (yp_cons M _ _ [] [TId "FrameMonitor_t"; TId "mon1"; TP PSemi]); [apply yp_nls|].
    apply (yp_cons M _ _ [TId "FrameMonitor_t"; TId "mon1"; TP PSemi] []); [|apply yp_nls].
    apply (yp_line M "  FrameMonitor_t mon1;"); [apply raw_intro; [reflexivity|cbn; lia]|reflexivity].
  - apply (yp_cons M _ _ [] [TP PRbrace; TId (type_name m); TP PSemi]); [apply yp_nls|].
    apply (yp_cons M _ _ [TP PRbrace; TId (type_name m); TP PSemi] []); [|apply yp_nls].
    assert (LX : lex ("} " ++ g_name m ++ "_t;") = [TP PRbrace; TId (type_name m); TP PSemi]).
    { unfold lex, type_name. change ("} " ++ g_name m ++ "_t;") with (String "}" (String " " (g_name m ++ "_t" ++ String ";" ""))).
      rewrite (lex_idle_solo "}" PRbrace) by reflexivity. rewrite lex_space, <- app_assoc. rewrite lex_ident; [reflexivity| |reflexivity].
      apply ident_prefix; [apply (hk_msg _ HM)|reflexivity]. }
    rewrite <- LX. apply yp_line; [raw|reflexivity].
Qed.

Lemma msg_struct : forall g m passed passed' t, src_ok g "" -> is_ident (n_usebits g) = true ->
  (String.length (n_usebits g) <= 1100)%nat -> hmsg_ok m -> g_notempty m = true ->
  msg_header g passed m = Ok (passed', t) -> has_struct_text g m t.
Proof.
  intros g m passed passed' t SG UB LB HM NE E. pose proof (so_gen _ _ SG) as GO.
  destruct (consts_top m (hk_msg _ HM)) as [C1 C2].
  unfold msg_header in E. rewrite NE in E. cbn [negb] in E.
  destruct (sig_macros g m passed (g_sigs m)) as [[p2 ms]| |] eqn:EM; cbn [bind] in E; try discriminate.
  destruct (macros_top g m (g_sigs m) passed p2 ms GO (hk_msg _ HM) (fun sg I => I) (hk_sigs _ HM) EM) as (M1 & _).
  destruct (struct_fields g m true _) as [fb| |] eqn:EB; cbn [bind] in E; try discriminate.
  destruct (struct_fields g m false _) as [fp| |] eqn:EP; cbn [bind] in E; try discriminate. apply Ok_inj in E; apply pair_equal_spec in E; destruct E as [<- <-].
  eexists. split; [apply top_r; [apply top_r; [apply top_self|exact M1]|exact C1]|]. intros M. eapply struct_yp; eauto.
Qed.

Lemma headers_struct : forall g xs passed t x, head_ok g -> (forall x, In x xs -> hmsg_ok (x_msg x)) ->
  msg_headers g passed xs = Ok t -> In x xs -> g_notempty (x_msg x) = true -> has_struct_text g (x_msg x) t.
Proof.
  intros g. induction xs as [|y r IH]; intros passed t x HD OK E I NE; [contradiction|].
  cbn [msg_headers] in E. destruct (msg_header g passed (x_msg y)) as [[p1 t1]| |] eqn:EH; cbn [bind] in E; try discriminate.
  destruct (msg_headers g p1 r) as [ts| |] eqn:ER; cbn [bind] in E; try discriminate. apply Ok_inj in E. subst t.
  destruct (msg_header_top g (x_msg y) passed p1 t1 (hd_src _ HD) (proj1 (hd_bits _ HD)) (proj2 (hd_bits _ HD)) (OK y (or_introl eq_refl)) EH) as (H1 & _).
  destruct (msg_headers_top g r p1 ts HD (fun y I => OK y (or_intror I)) ER) as (I1 & _).
  destruct I as [<-|I].
  - apply hst_l; [|exact I1]. apply (msg_struct g (x_msg y) passed p1 t1 (hd_src _ HD) (proj1 (hd_bits _ HD)) (proj2 (hd_bits _ HD)) (OK y (or_introl eq_refl)) NE EH).
  - apply hst_r; [|exact H1]. eapply IH; eauto. intros z Z. apply OK. now right.
Qed.

Lemma header_struct : forall g mx xs ps x, head_ok g -> (0 <= mx < 2 ^ 32)%Z -> (forall x, In x xs -> hmsg_ok (x_msg x)) ->
  main_header g mx xs = Ok ps -> In x xs -> g_notempty (x_msg x) = true -> has_struct_text g (x_msg x) ps.
Proof.
  intros g mx xs ps x HD MX OK E I NE. unfold main_header in E.
  destruct (msg_headers g [] xs) as [t| |] eqn:EH; cbn [bind] in E; try discriminate. apply Ok_inj in E. subst ps.
  destruct (head_top g mx HD MX) as (T0 & _).
  assert (B : bpart ([L "// Function signatures"; nls 1] ++ List.concat (map (fun x => msg_prototypes g (x_msg x)) xs) ++ [L cpp_close])).
  { apply bpart_app; [apply bpart_cons; [lit|apply bp_nls]|]. apply bpart_app; [|apply cpp_bp].
    apply bpart_concat. apply Forall_map. apply Forall_forall. intros y J. apply protos_bp; [apply HD|apply OK; auto]. }
  apply hst_r; [|exact T0]. apply hst_l; [|exact B]. eapply headers_struct; eauto.
Qed.

Lemma driver_struct : forall drv g d h c msg, driver drv g d h c -> header_ok d -> In msg (d_msgs d) -> g_notempty msg = true ->
  exists ps, h = sconcat ps /\ has_struct_text g msg ps.
Proof.
  intros drv g d h c msg [RUN [DI DL] MS ND] HO IM NE.
  destruct RUN as (srt & out & date & dbc & hi & low & nc & ni & nf & rest & SR & DT & DB & HI & LO & G & GM).
  set (s := configure drv out (common_info date) (driver_info dbc) hi low nc ni nf) in *.
  assert (EO : forall m, In m (d_msgs d) -> emit_ok m).
  { intros m I. destruct (MS m I) as (A & B & C). constructor; auto. now apply short_few. }
  destruct (map_res_loaded (d_msgs d)) as (xs0 & LM & F0).
  { intros m I. split; apply (EO m I). }
  unfold generate_main in GM. rewrite load_messages_map, LM in GM. cbn [bind] in GM.
  set (xs := srt ciexpr (fun x => g_id (x_msg x)) xs0) in *.
  assert (PX : Permutation xs xs0) by apply SR.
  destruct (loaded_self _ _ F0) as [FS EM].
  assert (PM : Permutation (map x_msg xs) (d_msgs d)) by (rewrite EM; now apply Permutation_map).
  assert (HK : forall x, In x xs -> hmsg_ok (x_msg x)).
  { intros x I. assert (IM' : In (x_msg x) (d_msgs d)) by (eapply Permutation_in; [exact PM|now apply in_map]).
    constructor; [apply (MS _ IM')|]. intros sg S. eapply ho_sigs; eauto. }
  pose proof (configure_head drv out date dbc hi low nc ni nf DI DL DT DB HI LO) as HD. fold s in HD.
  rewrite <- G in *.
  destruct (main_header g (d_maxdlc d) xs) as [hd| |] eqn:EH; cbn [bind] in GM; try discriminate.
  destruct (main_source g (f_coreh (st_f s)) xs) as [sc| |]; cbn [bind] in GM; try discriminate.
  cbn [List.app] in GM. injection GM as <- _ _.
  exists hd. split; [reflexivity|].
  assert (J : In msg (map x_msg xs)) by (eapply Permutation_in; [apply Permutation_sym; exact PM|exact IM]).
  apply in_map_iff in J. destruct J as (x & <- & J). pose proof (ho_dlc d HO). apply (header_struct g (d_maxdlc d) xs hd x HD); auto. lia.
Qed.

(** ** Tokens of the header *)

Lemma out_grows : forall ls st, exists more, pp_out (runs st ls) = (more ++ pp_out st)%list.
Proof.
  induction ls as [|l ls IH]; intros st; [exists []; reflexivity|].
  assert (X : exists m1, pp_out (pp_line st l) = (m1 ++ pp_out st)%list).
  { unfold pp_line, pp_push. destruct (directive l) as [[d r]|].
    - destruct (String.eqb d "ifdef"); [exists []; reflexivity|]. destruct (String.eqb d "ifndef"); [exists []; reflexivity|].
      destruct (String.eqb d "else"); [destruct (pp_stack st); exists []; reflexivity|]. destruct (String.eqb d "endif"); [exists []; reflexivity|].
      destruct (String.eqb d "define"); [destruct (pp_active st); exists []; reflexivity|]. destruct (String.eqb d "if"); exists []; reflexivity.
    - destruct (pp_active st); [exists [l]; reflexivity|exists []; reflexivity]. }
  destruct X as (m1 & X). destruct (IH (pp_line st l)) as (m2 & Y). exists (m2 ++ m1)%list.
  change (runs st (l :: ls)) with (runs (pp_line st l) ls). now rewrite Y, X, List.app_assoc.
Qed.

Theorem struct_declared : forall drv g d h c conf msg, driver drv g d h c -> header_ok d -> In msg (d_msgs d) -> g_notempty msg = true ->
  splice h = h -> (forall x, In x (switches g) -> ~ In x (defines (lines h))) ->
  declares (text_toks conf h) (type_name msg)
    (all_members (defined (n_usebits g) conf) (defined (n_usesigfloat g) conf) (defined (n_useroll g) conf) (defined (n_usemon g) conf) msg).
Proof.
  intros drv g d h c conf msg DR HO IM NE SP SW.
  destruct (driver_struct _ _ _ _ _ _ DR HO IM NE) as (ps & -> & p & (a & b & -> & (la & PA & BA) & (lb & PB & BB)) & Y).
  assert (LN : forall ls, part p ls -> lines (sconcat (a ++ p ++ b)) = (la ++ ls ++ lb)%list).
  { intros ls P. apply part_lines. apply part_app; [exact PA|]. apply part_app; assumption. }
  unfold text_toks. rewrite SP. unfold pp_run. 
  set (st0 := {| pp_macros := conf; pp_stack := []; pp_out := [] |}).
  set (st1 := runs st0 la). destruct (Y (pp_macros st1)) as (ls & P & Q & R). rewrite (LN ls P).
  change (fold_left pp_line ?l ?s) with (runs s l). rewrite !runs_app. fold st1.
  assert (S1 : pp_stack st1 = []) by (unfold st1; rewrite BA; reflexivity).
  assert (E1 : st1 = mkst (pp_macros st1) [] (pp_out st1)) by (destruct st1; cbn in S1 |- *; now rewrite S1).
  destruct (R [] (pp_out st1) eq_refl) as (o & R1 & T1). rewrite E1, R1.
  destruct (out_grows lb (mkst (pp_macros st1) [] o)) as (more & G). rewrite G. cbn [mkst pp_out].
  assert (DEF : forall x, In x (switches g) -> defined x (pp_macros st1) = defined x conf).
  { intros x X. unfold defined, st1. rewrite runs_keep; [reflexivity|]. intros J. apply (SW x X).
    rewrite (LN ls P), defines_app. apply in_app_iff. now left. }
  unfold declares. rewrite rev_app_distr, map_app, List.concat_app. fold (otoks o). rewrite T1.
  exists (otoks (pp_out st1)), (List.concat (map lex (rev more))), (List.concat (map toks_of (macro_members (pp_macros st1) g msg))). split.
  - unfold struct_toks. rewrite <- !List.app_assoc. reflexivity.
  - rewrite parse_toks. unfold macro_members. rewrite !DEF by (unfold switches; cbn; tauto). reflexivity.
Qed.
