(** Structured view of emitted text: lines, conditional sections, definitions; what the
    preprocessor makes of them, and the statements they parse to. *)

From Coq Require Import ZArith NArith List String Ascii Bool Lia.
From Verif Require Import Base CSyntax Writer LexLemmas.
Import ListNotations.
Open Scope string_scope.

(** ** Lines *)

Definition no_nl (s : string) : bool := negb (has_char NL s).

Lemma no_nl_app : forall a b, no_nl (a ++ b) = no_nl a && no_nl b.
Proof. intros. unfold no_nl. rewrite has_char_app, negb_orb. reflexivity. Qed.

Lemma no_nl_ident : forall s, all_chars is_idchar s = true -> no_nl s = true.
Proof. intros. unfold no_nl. rewrite (has_char_false NL s is_idchar); auto. Qed.

Lemma lines_aux_line : forall s racc r, no_nl s = true ->
  lines_aux racc (s ++ String NL r) = (rev_string racc ++ s) :: lines_aux "" r.
Proof.
  induction s as [|c s IH]; intros racc r H.
  - cbn. now rewrite app_nil_r.
  - rewrite app_cons. cbn [lines_aux]. unfold no_nl in *. cbn [has_char] in H.
    rewrite negb_orb in H. apply andb_true_iff in H. destruct H as [H1 H2].
    rewrite Ascii.eqb_sym. apply negb_true_iff in H1. rewrite H1.
    rewrite IH by auto. rewrite rev_cons, app_assoc. reflexivity.
Qed.

Lemma lines_line : forall s r, no_nl s = true -> lines (s ++ String NL r) = s :: lines r.
Proof. intros. unfold lines. now rewrite lines_aux_line. Qed.

Lemma last_char_nl : forall s, no_nl s = true -> s <> "" ->
  match last_char s with Some c => Ascii.eqb c NL | None => true end = false.
Proof.
  induction s as [|c s IH]; intros H N; [congruence|].
  unfold no_nl in *. cbn [has_char] in H. rewrite negb_orb in H. apply andb_true_iff in H.
  destruct H as [H1 H2]. cbn [last_char]. destruct s as [|d s].
  - rewrite Ascii.eqb_sym. now apply negb_true_iff in H1.
  - apply IH; auto. discriminate.
Qed.

(** a raw line that is written completely *)
Definition raw_ok (s : string) : Prop := no_nl s = true /\ (String.length s < 10000)%nat.

Lemma L_raw : forall s, raw_ok s -> L s = s ++ nl.
Proof.
  intros s [A B]. unfold L, print_loc. rewrite cut_short by auto.
  unfold append_s. destruct s as [|c s]; [reflexivity|].
  pose proof (last_char_nl (String c s) A ltac:(discriminate)) as H.
  destruct (last_char (String c s)); [now rewrite H|discriminate].
Qed.

Lemma sconcat_app : forall a b, sconcat (a ++ b) = sconcat a ++ sconcat b.
Proof. induction a; intros; simpl; auto. now rewrite IHa, app_assoc. Qed.

Lemma lines_raws : forall l r, Forall raw_ok l ->
  lines (sconcat (map L l) ++ r) = (l ++ lines r)%list.
Proof.
  induction l as [|s l IH]; intros r H; auto.
  inversion H as [|x y X Y]; subst. cbn [map sconcat].
  rewrite L_raw by auto. rewrite !app_assoc. unfold nl. cbn [String.append].
  rewrite lines_line by apply X. rewrite IH by auto. reflexivity.
Qed.

Lemma nls_1 : nls 1 = L "".
Proof. reflexivity. Qed.
Lemma nls_2 : nls 2 = L "" ++ L "".
Proof. reflexivity. Qed.

(** ** Sections *)

Inductive items :=
| INil
| ILine (s : string) (ss : list stmt) (r : items)
| IDef (s : string) (r : items)                       (* #define s *)
| ISkip (s : string) (r : items)                      (* #include, #pragma, #error *)
| ICond (neg : bool) (x : string) (a : items) (els : bool) (b : items) (tail : string)
        (r : items)                                   (* #ifdef x a [#else b] #endif tail *)
| INever (s : string) (a : items) (tail : string) (r : items).   (* #if s a #endif *)

Fixpoint iapp (a b : items) : items :=
  match a with
  | INil => b
  | ILine s ss r => ILine s ss (iapp r b)
  | IDef s r => IDef s (iapp r b)
  | ISkip s r => ISkip s (iapp r b)
  | ICond n x p e q t r => ICond n x p e q t (iapp r b)
  | INever s p t r => INever s p t (iapp r b)
  end.

Fixpoint flat (i : items) : list string :=
  match i with
  | INil => []
  | ILine s _ r => s :: flat r
  | IDef s r => ("#define " ++ s) :: flat r
  | ISkip s r => s :: flat r
  | ICond n x a e b t r =>
      (((if n then "#ifndef " else "#ifdef ") ++ x)%string :: flat a
         ++ (if e then "#else" :: flat b else []) ++ ("#endif" ++ t)%string :: flat r)%list
  | INever s a t r => (("#if " ++ s)%string :: flat a ++ ("#endif" ++ t)%string :: flat r)%list
  end.

Definition mtable := list (string * macro).

Fixpoint act (M : mtable) (i : items) : mtable * list string :=
  match i with
  | INil => (M, [])
  | ILine s _ r => let '(M', l) := act M r in (M', s :: l)
  | IDef s r => act (pp_define s :: M) r
  | ISkip _ r => act M r
  | ICond n x a _ b _ r =>
      let '(M1, l1) := act M (if xorb n (defined x M) then a else b) in
      let '(M2, l2) := act M1 r in
      (M2, l1 ++ l2)%list
  | INever _ _ _ r => act M r
  end.

(** the statements of the active lines *)
Fixpoint stms (M : mtable) (i : items) : list stmt :=
  match i with
  | INil => []
  | ILine _ ss r => (ss ++ stms M r)%list
  | IDef s r => stms (pp_define s :: M) r
  | ISkip _ r => stms M r
  | ICond n x a _ b _ r =>
      let p := if xorb n (defined x M) then a else b in
      (stms M p ++ stms (fst (act M p)) r)%list
  | INever _ _ _ r => stms M r
  end.

Definition end_tail (t : string) : Prop := t = "" \/ exists r, t = String " " r.
Definition def_head (s : string) : Prop := exists c r, s = String c r /\ is_idchar c = true.

Definition skip_dir (s : string) : Prop :=
  exists d rest, directive s = Some (d, rest) /\
  smem d ["ifdef"; "ifndef"; "else"; "endif"; "define"; "if"] = false.

Fixpoint iwf (i : items) : Prop :=
  match i with
  | INil => True
  | ILine s _ r => directive s = None /\ iwf r
  | IDef s r => def_head s /\ iwf r
  | ISkip s r => skip_dir s /\ iwf r
  | ICond n x a e b t r =>
      is_ident x = true /\ iwf a /\ iwf b /\ (e = false -> b = INil) /\ end_tail t /\ iwf r
  | INever s a t r => iwf a /\ end_tail t /\ iwf r
  end.

Lemma span_ident : forall x r, all_chars is_idchar x = true ->
  match r with String c _ => is_idchar c = false | "" => True end ->
  span is_idchar (x ++ r) = (x, r).
Proof.
  induction x as [|c x IH]; intros r A E; cbn [String.append].
  - destruct r as [|d r]; [reflexivity|]. cbn [span]. now rewrite E.
  - cbn [all_chars] in A. apply andb_true_iff in A. destruct A as [A1 A2].
    cbn [span]. rewrite A1, IH; auto.
Qed.

Lemma skip_blanks_id : forall c r, is_blank c = false -> skip_blanks (String c r) = String c r.
Proof. intros. unfold skip_blanks. cbn [span]. now rewrite H. Qed.

Lemma idchar_not_blank : forall c, is_idchar c = true -> is_blank c = false.
Proof. intros c. destruct c as [[] [] [] [] [] [] [] []]; vm_compute; congruence. Qed.

Lemma directive_word : forall d s, all_chars is_idchar d = true -> d <> "" ->
  directive ("#" ++ d ++ " " ++ s) = Some (d, skip_blanks s).
Proof.
  intros d s A N. destruct d as [|c d]; [congruence|]. cbn [String.append directive].
  cbn [all_chars] in A. apply andb_true_iff in A. destruct A as [A1 A2].
  rewrite skip_blanks_id by now apply idchar_not_blank.
  cbn [span]. rewrite A1.
  change (d ++ String " " s) with (d ++ " " ++ s).
  rewrite span_ident; [|auto|reflexivity].
  unfold skip_blanks. cbn [String.append span is_blank].
  change (is_blank " ") with true. cbv iota. destruct (span is_blank s); reflexivity.
Qed.

Lemma skip_blanks_ident : forall x, is_ident x = true -> skip_blanks x = x.
Proof.
  intros [|c x] H; [discriminate|]. apply skip_blanks_id. apply idchar_not_blank.
  cbn in H. apply andb_true_iff in H. destruct H. unfold is_idchar. now rewrite H.
Qed.

Lemma pp_name_ident : forall x, is_ident x = true -> pp_name x = x.
Proof.
  intros. unfold pp_name. rewrite <- (app_nil_r x) at 1.
  rewrite span_ident; auto using ident_chars.
Qed.

Lemma directive_ifdef : forall x, is_ident x = true -> directive ("#ifdef " ++ x) = Some ("ifdef", x).
Proof.
  intros. change ("#ifdef " ++ x) with ("#" ++ "ifdef" ++ " " ++ x).
  rewrite directive_word by (auto; discriminate). now rewrite skip_blanks_ident.
Qed.
Lemma directive_ifndef : forall x, is_ident x = true -> directive ("#ifndef " ++ x) = Some ("ifndef", x).
Proof.
  intros. change ("#ifndef " ++ x) with ("#" ++ "ifndef" ++ " " ++ x).
  rewrite directive_word by (auto; discriminate). now rewrite skip_blanks_ident.
Qed.
Lemma directive_define : forall s, def_head s -> directive ("#define " ++ s) = Some ("define", s).
Proof.
  intros s (c & r & E & I). change ("#define " ++ s) with ("#" ++ "define" ++ " " ++ s).
  rewrite directive_word by (auto; discriminate). subst s.
  now rewrite skip_blanks_id by now apply idchar_not_blank.
Qed.
Lemma directive_endif : forall t, end_tail t -> exists r, directive ("#endif" ++ t) = Some ("endif", r).
Proof.
  intros t [->|[r ->]]; [eexists; reflexivity|].
  exists (skip_blanks r).
  change ("#endif" ++ String " " r) with ("#" ++ "endif" ++ " " ++ r).
  now rewrite directive_word by (auto; discriminate).
Qed.
Lemma directive_if : forall s, exists r, directive ("#if " ++ s) = Some ("if", r).
Proof.
  intros s. exists (skip_blanks s).
  change ("#if " ++ s) with ("#" ++ "if" ++ " " ++ s).
  now rewrite directive_word by (auto; discriminate).
Qed.

Definition pp_after (st : ppstate) (i : items) : ppstate :=
  if pp_active st then
    {| pp_macros := fst (act (pp_macros st) i); pp_stack := pp_stack st;
       pp_out := (rev (snd (act (pp_macros st) i)) ++ pp_out st)%list |}
  else st.

Lemma pp_after_inactive : forall st i, pp_active st = false -> pp_after st i = st.
Proof. intros. unfold pp_after. now rewrite H. Qed.

Theorem pp_items : forall i st, iwf i -> fold_left pp_line (flat i) st = pp_after st i.
Proof.
  induction i as [|s ss r IHr|s r IHr|s r IHr|n x a IHa e b IHb t r IHr|s a IHa t r IHr];
    intros st W; cbn [flat iwf] in *.
  - unfold pp_after. cbn [fold_left act fst snd rev List.app]. destruct (pp_active st); destruct st; reflexivity.
  - destruct W as [D W]. cbn [fold_left].
    unfold pp_line at 2. rewrite D.
    destruct (pp_active st) eqn:A.
    + rewrite IHr by auto. unfold pp_after.
      change (pp_active _) with (pp_active st) at 1. rewrite A. cbn [pp_macros pp_stack pp_out act].
      destruct (act (pp_macros st) r) as [M' l]. cbn [fst snd rev]. rewrite <- List.app_assoc. reflexivity.
    + rewrite IHr, !pp_after_inactive by auto. reflexivity.
  - destruct W as [D W]. cbn [fold_left].
    unfold pp_line at 2. rewrite (directive_define s D). cbn [String.eqb Ascii.eqb Bool.eqb].
    destruct (pp_active st) eqn:A.
    + rewrite IHr by auto. unfold pp_after.
      change (pp_active _) with (pp_active st) at 1. rewrite A. reflexivity.
    + rewrite IHr, !pp_after_inactive by auto. reflexivity.
  - destruct W as [(d & rest & D & N) W]. cbn [fold_left].
    assert (E : pp_line st s = st).
    { unfold pp_line. rewrite D. unfold smem in N. cbn [existsb] in N.
      repeat (apply orb_false_iff in N; destruct N as [?N N]).
      rewrite N0, N1, N2, N3, N4, N5. reflexivity. }
    rewrite E, IHr by auto. reflexivity.
  - destruct W as (X & Wa & Wb & E & T & Wr).
    cbn [fold_left]. rewrite !fold_left_app.
    set (v := xorb n (defined x (pp_macros st))).
    assert (P : pp_line st ((if n then "#ifndef " else "#ifdef ") ++ x) = pp_push v st).
    { unfold pp_line, v. destruct n.
      - rewrite directive_ifndef by auto. cbn [String.eqb Ascii.eqb Bool.eqb].
        rewrite pp_name_ident by auto. reflexivity.
      - rewrite directive_ifdef by auto. cbn [String.eqb Ascii.eqb Bool.eqb].
        rewrite pp_name_ident by auto. rewrite xorb_false_l. reflexivity. }
    rewrite P. rewrite IHa by auto.
    destruct (directive_endif t T) as [tr TE].
    assert (POP : forall st', pp_line st' ("#endif" ++ t)
       = {| pp_macros := pp_macros st'; pp_stack := tl (pp_stack st'); pp_out := pp_out st' |}).
    { intros. unfold pp_line. rewrite TE. reflexivity. }
    assert (MID : fold_left pp_line (if e then "#else" :: flat b else []) (pp_after (pp_push v st) a)
              = {| pp_macros := pp_macros (pp_after st (if v then a else b));
                   pp_stack := (if e then negb v else v) :: pp_stack st;
                   pp_out := pp_out (pp_after st (if v then a else b)) |}).
    { assert (EL : forall st', pp_line st' "#else" =
         match pp_stack st' with
         | y :: q => {| pp_macros := pp_macros st'; pp_stack := negb y :: q; pp_out := pp_out st' |}
         | [] => st' end) by (intros; destruct st' as [? [|] ?]; reflexivity).
      assert (AP : forall M y q o, pp_active {| pp_macros := M; pp_stack := y :: q; pp_out := o |}
                     = y && forallb id q) by reflexivity.
      destruct e; cbn [fold_left].
      - rewrite EL, IHb by auto. unfold pp_after, pp_push. rewrite AP.
        destruct st as [M stk o]. unfold pp_active at 2. cbn [pp_stack pp_macros pp_out].
        destruct v; cbn [andb negb]; destruct (forallb id stk) eqn:A;
          cbn [pp_stack pp_macros pp_out]; rewrite AP; cbn [andb negb]; rewrite ?A;
          unfold pp_active; cbn [pp_stack]; rewrite ?A; reflexivity.
      - rewrite (E eq_refl). unfold pp_after, pp_push. rewrite AP.
        destruct st as [M stk o]. unfold pp_active. cbn [pp_stack pp_macros pp_out].
        destruct v; cbn [andb]; destruct (forallb id stk) eqn:A; reflexivity. }
    rewrite MID. cbn [fold_left]. rewrite POP. cbn [pp_macros pp_stack pp_out tl].
    rewrite IHr by auto. unfold pp_after.
    unfold pp_active at 1. cbn [pp_stack]. fold (pp_active st).
    change (forallb id (pp_stack st)) with (pp_active st).
    destruct (pp_active st) eqn:A.
    + cbn [pp_macros pp_out act]. fold v.
      destruct (act (pp_macros st) (if v then a else b)) as [M1 l1]. cbn [fst snd].
      destruct (act M1 r) as [M2 l2]. cbn [fst snd pp_stack].
      rewrite rev_app_distr, List.app_assoc. reflexivity.
    + destruct st; reflexivity.
  - destruct W as (Wa & T & Wr).
    cbn [fold_left]. rewrite fold_left_app.
    destruct (directive_if s) as [q Q].
    assert (P : pp_line st ("#if " ++ s) = pp_push false st).
    { unfold pp_line. rewrite Q. reflexivity. }
    rewrite P, IHa by auto. rewrite pp_after_inactive by reflexivity.
    cbn [fold_left]. destruct (directive_endif t T) as [tr TE].
    assert (POP : pp_line (pp_push false st) ("#endif" ++ t) = st).
    { unfold pp_line. rewrite TE. cbn [String.eqb Ascii.eqb Bool.eqb]. destruct st; reflexivity. }
    rewrite POP, IHr by auto. reflexivity.
Qed.

Lemma pp_run_items : forall M i, iwf i ->
  pp_macros (pp_run M (flat i)) = fst (act M i) /\ pp_lines M (flat i) = snd (act M i).
Proof.
  intros M i W. unfold pp_lines, pp_run. rewrite pp_items by auto. unfold pp_after.
  cbn. rewrite List.app_nil_r, rev_involutive. auto.
Qed.

Lemma flat_iapp : forall a b, flat (iapp a b) = (flat a ++ flat b)%list.
Proof.
  induction a as [|s ss r IHr|s r IHr|s r IHr|n x a IHa e b' IHb t r IHr|s a IHa t r IHr];
    intros b; cbn [iapp flat List.app]; rewrite ?IHr; try reflexivity.
  - rewrite <- !List.app_assoc. reflexivity.
  - rewrite <- !List.app_assoc. reflexivity.
Qed.
Lemma iwf_iapp : forall a b, iwf a -> iwf b -> iwf (iapp a b).
Proof. induction a; intros b0 A B; cbn [iapp iwf] in *; intuition auto. Qed.
Lemma act_iapp : forall a b M, act M (iapp a b)
  = (fst (act (fst (act M a)) b), (snd (act M a) ++ snd (act (fst (act M a)) b))%list).
Proof.
  induction a; intros b0 M; cbn [iapp act].
  - cbn [fst snd List.app]. destruct (act M b0); reflexivity.
  - rewrite IHa. destruct (act M a) as [M1 l1]. cbn [fst snd List.app]. reflexivity.
  - rewrite IHa. reflexivity.
  - rewrite IHa. reflexivity.
  - destruct (act M _) as [M1 l1]. rewrite IHa3. destruct (act M1 a3) as [M2 l2].
    cbn [fst snd]. rewrite List.app_assoc. reflexivity.
  - rewrite IHa2. reflexivity.
Qed.
Lemma stms_iapp : forall a b M, stms M (iapp a b) = (stms M a ++ stms (fst (act M a)) b)%list.
Proof.
  induction a; intros b0 M; cbn [iapp stms act].
  - reflexivity.
  - rewrite IHa. destruct (act M a). cbn [fst]. now rewrite List.app_assoc.
  - apply IHa.
  - apply IHa.
  - cbv zeta. rewrite IHa3.
    destruct (act M (if xorb neg (defined x M) then a1 else a2)) as [M1 l1]. cbn [fst].
    destruct (act M1 a3) as [M2 l2]. cbn [fst]. now rewrite List.app_assoc.
  - apply IHa2.
Qed.

(** ** Statements *)

(** the line parses to these complete statements *)
Definition line_stmts (s : string) (ss : list stmt) : Prop :=
  forall rs k, srun (KBlock rs :: k, MStmt) (lex s) = Some (KBlock (rev ss ++ rs)%list :: k, MStmt).

Fixpoint istm (i : items) : Prop :=
  match i with
  | INil => True
  | ILine s ss r => line_stmts s ss /\ istm r
  | IDef s r => istm r
  | ISkip s r => istm r
  | ICond n x a e b t r => istm a /\ istm b /\ istm r
  | INever s a t r => istm r
  end.

Lemma istm_iapp : forall a b, istm a -> istm b -> istm (iapp a b).
Proof. induction a; intros b0 A B; cbn [iapp istm] in *; intuition auto. Qed.

Lemma srun_items : forall i M rs k, istm i ->
  srun (KBlock rs :: k, MStmt) (List.concat (map lex (snd (act M i))))
  = Some (KBlock (rev (stms M i) ++ rs)%list :: k, MStmt).
Proof.
  induction i; intros M rs k W; cbn [istm act stms] in *.
  - reflexivity.
  - destruct W as [W1 W2]. specialize (IHi M (rev ss ++ rs)%list k W2).
    destruct (act M i) as [M' l]. cbn [snd map List.concat] in *.
    rewrite srun_app, (W1 rs k), IHi. rewrite rev_app_distr, List.app_assoc. reflexivity.
  - apply IHi; auto.
  - apply IHi; auto.
  - destruct W as (A & B & C).
    set (v := xorb neg (defined x M)) in *.
    assert (H : srun (KBlock rs :: k, MStmt) (List.concat (map lex (snd (act M (if v then i1 else i2)))))
                = Some (KBlock (rev (stms M (if v then i1 else i2)) ++ rs)%list :: k, MStmt))
      by (destruct v; auto).
    destruct (act M (if v then i1 else i2)) as [M1 l1]. cbn [fst snd] in *.
    specialize (IHi3 M1 (rev (stms M (if v then i1 else i2)) ++ rs)%list k C).
    destruct (act M1 i3) as [M2 l2]. cbn [snd] in *.
    rewrite map_app, List.concat_app, srun_app, H, IHi3.
    rewrite rev_app_distr, List.app_assoc. reflexivity.
  - apply IHi2; auto.
Qed.

Theorem parse_items : forall M i, iwf i -> istm i ->
  parse_stmts (List.concat (map lex (pp_lines M (flat i)))) = Some (stms M i).
Proof.
  intros M i W S. destruct (pp_run_items M i W) as [_ E]. rewrite E.
  unfold parse_stmts. rewrite srun_items by auto.
  now rewrite List.app_nil_r, rev_involutive.
Qed.

Lemma source_items : forall M i, iwf i -> istm i -> Forall raw_ok (flat i) ->
  parse_stmts (source_toks M (sconcat (map L (flat i)))) = Some (stms M i).
Proof.
  intros M i W S R. unfold source_toks.
  pose proof (lines_raws (flat i) "" R) as E. rewrite app_nil_r in E. rewrite E.
  cbn [lines lines_aux]. change (lines "") with (@nil string). rewrite List.app_nil_r.
  now apply parse_items.
Qed.

(** no definitions inside: the macros stay the same *)
Fixpoint nodef (i : items) : Prop :=
  match i with
  | INil => True
  | ILine s ss r => nodef r
  | IDef s r => False
  | ISkip s r => nodef r
  | ICond n x a e b t r => nodef a /\ nodef b /\ nodef r
  | INever s a t r => nodef r
  end.

Lemma act_nodef : forall i M, nodef i -> fst (act M i) = M.
Proof.
  induction i; intros M N; cbn [nodef act] in *; auto.
  - specialize (IHi M N). destruct (act M i); auto.
  - contradiction.
  - destruct N as (A & B & C).
    assert (H : fst (act M (if xorb neg (defined x M) then i1 else i2)) = M)
      by (destruct (xorb neg (defined x M)); auto).
    destruct (act M _) as [M1 l1]. cbn [fst] in H. subst M1.
    specialize (IHi3 M C). destruct (act M i3); auto.
Qed.
