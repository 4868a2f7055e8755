(** Macros after preprocessing an emitted header. *)

From Coq Require Import ZArith NArith List String Ascii Bool Lia ZifyBool Permutation.
From Verif Require Import Base Dbl CSyntax CSem CRun Types Formatter SigPrinter Writer Settings
  MainGen App CodecSpec MsgSpec LexLemmas BitLemmas CSemLemmas Chunks UnpackProof PPProof BodyLemmas
  UnpackBody UnpackFun PackProof PackBody PackFun SourceFun DriverSpec DriverProof HeaderSpec.
Import ListNotations.
Open Scope string_scope.

Definition runs (st : ppstate) (ls : list string) : ppstate := fold_left pp_line ls st.
Lemma runs_app : forall st a b, runs st (a ++ b) = runs (runs st a) b.
Proof. intros. apply fold_left_app. Qed.

(** ** Balanced lines *)

Definition bal (ls : list string) : Prop := forall st, pp_stack (runs st ls) = pp_stack st.

Lemma bal_nil : bal [].
Proof. intros st. reflexivity. Qed.
Lemma bal_app : forall a b, bal a -> bal b -> bal (a ++ b).
Proof. intros a b A B st. rewrite runs_app, B, A. reflexivity. Qed.
Lemma bal_cons : forall l b, bal [l] -> bal b -> bal (l :: b).
Proof. intros. change (l :: b) with ([l] ++ b)%list. now apply bal_app. Qed.

Definition dword (l : string) : option string := match directive l with Some (d, _) => Some d | None => None end.
Definition cond_words : list string := ["ifdef"; "ifndef"; "else"; "endif"; "if"].

Lemma bal_plain : forall l, match dword l with Some d => ~ In d cond_words | None => True end -> bal [l].
Proof.
  intros l H st. unfold runs. cbn [fold_left]. unfold pp_line. unfold dword in H.
  destruct (directive l) as [[d rest]|]; [|now destruct (pp_active st)].
  cbn in H.
  repeat match goal with |- context [String.eqb d ?x] =>
    destruct (String.eqb_spec d x) as [->|]; [try (exfalso; tauto)|] end.
  - now destruct (pp_active st).
  - reflexivity.
Qed.

Lemma if_step : forall i st, (dword i = Some "ifdef" \/ dword i = Some "ifndef" \/ dword i = Some "if") ->
  exists b, pp_stack (pp_line st i) = b :: pp_stack st.
Proof.
  intros i st I. unfold pp_line, dword in *. destruct (directive i) as [[d r]|]; [|intuition discriminate].
  assert (D : d = "ifdef" \/ d = "ifndef" \/ d = "if") by intuition congruence.
  destruct D as [->|[->| ->]]; cbn; eauto.
Qed.
Lemma else_step : forall i st b k, dword i = Some "else" -> pp_stack st = b :: k ->
  pp_stack (pp_line st i) = negb b :: k.
Proof.
  intros i st b k I S. unfold pp_line, dword in *. destruct (directive i) as [[d r]|]; [|discriminate].
  injection I as ->. cbn. now rewrite S.
Qed.
Lemma end_step : forall i st b k, dword i = Some "endif" -> pp_stack st = b :: k ->
  pp_stack (pp_line st i) = k.
Proof.
  intros i st b k I S. unfold pp_line, dword in *. destruct (directive i) as [[d r]|]; [|discriminate].
  injection I as ->. cbn. now rewrite S.
Qed.
Lemma runs_one : forall st l, runs st [l] = pp_line st l.
Proof. reflexivity. Qed.

Lemma bal_if : forall i a e, (dword i = Some "ifdef" \/ dword i = Some "ifndef" \/ dword i = Some "if") ->
  dword e = Some "endif" -> bal a -> bal (i :: a ++ [e]).
Proof.
  intros i a e I E A st. change (i :: a ++ [e])%list with ([i] ++ (a ++ [e]))%list.
  rewrite !runs_app, !runs_one. destruct (if_step i st I) as [b S].
  apply (end_step _ _ b); auto. now rewrite A.
Qed.
Lemma bal_if_else : forall i a m b e, (dword i = Some "ifdef" \/ dword i = Some "ifndef" \/ dword i = Some "if") ->
  dword m = Some "else" -> dword e = Some "endif" -> bal a -> bal b -> bal (i :: a ++ m :: b ++ [e]).
Proof.
  intros i a m b e I M E A B st. change (i :: a ++ m :: b ++ [e])%list with ([i] ++ (a ++ ([m] ++ (b ++ [e]))))%list.
  rewrite !runs_app, !runs_one. destruct (if_step i st I) as [x S].
  apply (end_step _ _ (negb x)); auto. rewrite B. apply else_step; auto. now rewrite A.
Qed.

Lemma bal_plains : forall ls, Forall (fun l => directive l = None) ls -> bal ls.
Proof.
  induction ls as [|l r IH]; intros F; [apply bal_nil|]. inversion F; subst. apply bal_cons; auto.
  apply bal_plain. unfold dword. now rewrite H1.
Qed.

(** ** Which macros a list of lines defines *)

Lemma defines_app : forall a b, defines (a ++ b) = (defines a ++ defines b)%list.
Proof. intros. apply flat_map_app. Qed.

Lemma runs_keep : forall x ls st, ~ In x (defines ls) ->
  lookup x (pp_macros (runs st ls)) = lookup x (pp_macros st).
Proof.
  intros x. induction ls as [|l r IH]; intros st N; [reflexivity|].
  change (runs st (l :: r)) with (runs (pp_line st l) r).
  change (l :: r) with ([l] ++ r)%list in N. rewrite defines_app in N.
  rewrite IH by (intros X; apply N, in_or_app; auto).
  assert (N1 : ~ In x (defines [l])) by (intros X; apply N, in_or_app; auto). clear - N1.
  unfold defines in N1. cbn [flat_map] in N1. rewrite List.app_nil_r in N1. unfold pp_line.
  destruct (directive l) as [[d rest]|]; [|now destruct (pp_active st)].
  repeat match goal with |- context [String.eqb d ?y] =>
    destruct (String.eqb_spec d y) as [->|]; [try reflexivity|] end.
  - destruct (pp_stack st); reflexivity.
  - change (String.eqb "define" "define") with true in N1. cbn [In] in N1.
    destruct (pp_active st); [|reflexivity]. cbn [pp_macros lookup].
    destruct (pp_define rest) as [y mc]. cbn [fst] in N1. destruct (String.eqb_spec x y); [|reflexivity].
    exfalso. apply N1. auto.
  - reflexivity.
Qed.

Lemma count_none : forall x l, count_occ string_dec l x = 0%nat -> ~ In x l.
Proof. intros x l H I. apply (count_occ_In string_dec) in I. lia. Qed.

(** a definition outside of any conditional *)
Lemma top_define : forall M pre s post, bal pre -> def_head s ->
  count_occ string_dec (defines (pre ++ ("#define " ++ s)%string :: post)%list) (fst (pp_define s)) = 1%nat ->
  lookup (fst (pp_define s)) (pp_macros (pp_run M (pre ++ ("#define " ++ s)%string :: post))) = Some (snd (pp_define s)).
Proof.
  intros M pre s post B D C. unfold pp_run. fold (runs {| pp_macros := M; pp_stack := []; pp_out := [] |} (pre ++ ("#define " ++ s)%string :: post)).
  change (pre ++ ("#define " ++ s)%string :: post)%list with (pre ++ ([("#define " ++ s)%string] ++ post))%list in *.
  rewrite !runs_app. rewrite !defines_app, !count_occ_app in C.
  assert (D1 : defines ["#define " ++ s] = [fst (pp_define s)]).
  { unfold defines. cbn [flat_map]. now rewrite directive_define by auto. }
  rewrite D1 in C. cbn [count_occ] in C.
  destruct (string_dec (fst (pp_define s)) (fst (pp_define s))); [|congruence].
  rewrite runs_keep by (apply count_none; lia).
  set (st := runs _ pre). assert (ST : pp_stack st = []) by apply B.
  unfold runs. cbn [fold_left]. unfold pp_line. rewrite directive_define by auto. cbn.
  unfold pp_active. rewrite ST. cbn. destruct (pp_define s) as [x mc]. cbn. now rewrite String.eqb_refl.
Qed.

(** a definition guarded by #ifndef of the same name *)
Lemma guarded_define : forall M pre x c s e post, bal pre -> is_ident x = true -> def_head s -> fst (pp_define s) = x ->
  bal c -> ~ In x (defines c) -> dword e = Some "endif" ->
  count_occ string_dec (defines (pre ++ (("#ifndef " ++ x)%string :: c ++ [("#define " ++ s)%string; e]) ++ post)%list) x = 1%nat ->
  lookup x (pp_macros (pp_run M (pre ++ (("#ifndef " ++ x)%string :: c ++ [("#define " ++ s)%string; e]) ++ post)))
  = match lookup x M with Some mc => Some mc | None => Some (snd (pp_define s)) end.
Proof.
  intros M pre x c s e post B ID D FX BC NC E C. unfold pp_run.
  fold (runs {| pp_macros := M; pp_stack := []; pp_out := [] |} (pre ++ (("#ifndef " ++ x)%string :: c ++ [("#define " ++ s)%string; e]) ++ post)).
  change (("#ifndef " ++ x)%string :: c ++ [("#define " ++ s)%string; e])%list
    with ([("#ifndef " ++ x)%string] ++ (c ++ ([("#define " ++ s)%string] ++ [e])))%list in *.
  rewrite !runs_app. rewrite !defines_app, !count_occ_app in C.
  assert (D1 : defines ["#define " ++ s] = [x]).
  { unfold defines. cbn [flat_map]. rewrite directive_define by auto. cbn. now rewrite FX. }
  rewrite D1 in C. cbn [count_occ] in C. destruct (string_dec x x); [|congruence].
  rewrite runs_keep by (apply count_none; lia).
  set (st0 := {| pp_macros := M; pp_stack := []; pp_out := [] |}) in *.
  set (st := runs st0 pre). assert (ST : pp_stack st = []) by apply B.
  assert (LX : lookup x (pp_macros st) = lookup x M).
  { unfold st. rewrite runs_keep by (apply count_none; lia). reflexivity. }
  set (s1 := runs st _).
  assert (S1 : s1 = pp_push (negb (defined x (pp_macros st))) st).
  { unfold s1, runs. cbn [fold_left]. unfold pp_line. rewrite directive_ifndef by auto. cbn.
    unfold pp_name. rewrite <- (app_nil_r x) at 1. rewrite span_ident by (try exact Logic.I; now apply ident_chars). reflexivity. }
  set (s2 := runs s1 c).
  assert (S2 : pp_stack s2 = [negb (defined x M)]).
  { unfold s2. rewrite (BC s1), S1. cbn [pp_push pp_stack]. rewrite ST. unfold defined. now rewrite LX. }
  assert (L2 : lookup x (pp_macros s2) = lookup x M).
  { unfold s2. rewrite runs_keep by auto. rewrite S1. cbn [pp_push pp_macros]. exact LX. }
  rewrite runs_keep.
  2: { unfold defines. cbn [flat_map]. unfold dword in E. destruct (directive e) as [[d r]|]; [|cbn; auto].
       injection E as ->. cbn. auto. }
  unfold runs. cbn [fold_left]. unfold pp_line. rewrite directive_define by auto. cbn.
  unfold pp_active. rewrite S2. cbn. unfold defined. destruct (lookup x M) eqn:LM; cbn; [exact L2|].
  destruct (pp_define s) as [y mc]. cbn in *. subst y. now rewrite String.eqb_refl.
Qed.

(** ** Pieces of text and their lines *)

Definition part (ps ls : list string) : Prop := forall r, lines (sconcat ps ++ r) = (ls ++ lines r)%list.
Definition bpart (ps : list string) : Prop := exists ls, part ps ls /\ bal ls.

Lemma part_nil : part [] [].
Proof. intros r. reflexivity. Qed.
Lemma part_app : forall a la b lb, part a la -> part b lb -> part (a ++ b) (la ++ lb).
Proof. intros a la b lb A B r. rewrite sconcat_app, app_assoc, A, B. now rewrite List.app_assoc. Qed.
Lemma part_lines : forall ps ls, part ps ls -> lines (sconcat ps) = ls.
Proof. intros ps ls P. specialize (P ""). now rewrite app_nil_r, List.app_nil_r in P. Qed.
Lemma part_full : forall p, full p -> part [p] (lines p).
Proof. intros p F r. cbn [sconcat]. rewrite app_nil_r. now apply lines_full. Qed.
Lemma part_raw : forall s, raw_ok s -> part [L s] [s].
Proof. intros s R. rewrite <- (lines_L s R). apply part_full, L_full. Qed.

Lemma bpart_nil : bpart [].
Proof. exists []. split; [apply part_nil|apply bal_nil]. Qed.
Lemma bpart_app : forall a b, bpart a -> bpart b -> bpart (a ++ b).
Proof. intros a b (la & A & BA) (lb & B & BB). exists (la ++ lb)%list. split; [now apply part_app|now apply bal_app]. Qed.
Lemma bpart_cons : forall p b, bpart [p] -> bpart b -> bpart (p :: b).
Proof. intros p b. apply (bpart_app [p] b). Qed.
Lemma bpart_concat : forall l, Forall bpart l -> bpart (List.concat l).
Proof. induction l; intros F; [apply bpart_nil|]. inversion F; subst. cbn [List.concat]. apply bpart_app; auto. Qed.

Lemma bp_plain : forall s, raw_ok s -> directive s = None -> bpart [L s].
Proof. intros s R D. exists [s]. split; [now apply part_raw|]. apply bal_plains. auto. Qed.
Lemma bp_skip : forall s, raw_ok s -> skip_dir s -> bpart [L s].
Proof.
  intros s R (d & r & D & N). exists [s]. split; [now apply part_raw|]. apply bal_plain. unfold dword. rewrite D.
  intros I. assert (In d ["ifdef"; "ifndef"; "else"; "endif"; "define"; "if"]) by (cbn in *; tauto).
  unfold smem in N. destruct (existsb_exists (String.eqb d) ["ifdef"; "ifndef"; "else"; "endif"; "define"; "if"]) as [_ E].
  assert (X : true = false); [|discriminate]. rewrite <- N. symmetry. apply E. exists d. split; auto. apply String.eqb_refl.
Qed.
Lemma bp_def : forall s, raw_ok ("#define " ++ s) -> def_head s -> bpart [L ("#define " ++ s)].
Proof.
  intros s R D. exists [("#define " ++ s)%string]. split; [now apply part_raw|]. apply bal_plain. unfold dword.
  rewrite directive_define by auto. cbn. intuition discriminate.
Qed.
Lemma lines_nls : forall n, lines (nls n) = repeat "" n.
Proof. induction n; [reflexivity|]. cbn [repeat]. rewrite <- IHn. reflexivity. Qed.
Lemma bp_nls : forall n, bpart [nls n].
Proof.
  intros n. exists (lines (nls n)). split; [apply part_full, nls_full|]. rewrite lines_nls. apply bal_plains.
  apply Forall_forall. intros x I. apply repeat_spec in I. now subst.
Qed.
Lemma bp_empty : bpart [L ""].
Proof. apply bp_plain; [apply raw_empty|reflexivity]. Qed.

Definition opens (i : string) : Prop := dword i = Some "ifdef" \/ dword i = Some "ifndef" \/ dword i = Some "if".
Lemma opens_ifdef : forall x, is_ident x = true -> opens ("#ifdef " ++ x).
Proof. intros x I. left. unfold dword. now rewrite directive_ifdef. Qed.
Lemma opens_ifndef : forall x, is_ident x = true -> opens ("#ifndef " ++ x).
Proof. intros x I. right. left. unfold dword. now rewrite directive_ifndef. Qed.
Lemma bp_if : forall i a e, raw_ok i -> raw_ok e -> opens i -> dword e = Some "endif" -> bpart a ->
  bpart (L i :: a ++ [L e]).
Proof.
  intros i a e RI RE I E (la & A & B). exists (i :: la ++ [e])%list. split; [|now apply bal_if].
  apply (part_app [L i] [i] (a ++ [L e]) (la ++ [e])); [now apply part_raw|]. apply part_app; [auto|now apply part_raw].
Qed.
Lemma bp_if_else : forall i a m b e, raw_ok i -> raw_ok e -> raw_ok m -> opens i -> dword m = Some "else" ->
  dword e = Some "endif" -> bpart a -> bpart b -> bpart (L i :: a ++ L m :: b ++ [L e]).
Proof.
  intros i a m b e RI RE RM I M E (la & A & BA) (lb & B & BB). exists (i :: la ++ m :: lb ++ [e])%list.
  split; [|now apply bal_if_else].
  apply (part_app [L i] [i] (a ++ L m :: b ++ [L e]) (la ++ m :: lb ++ [e])); [now apply part_raw|].
  apply part_app; [auto|]. apply (part_app [L m] [m] (b ++ [L e]) (lb ++ [e])); [now apply part_raw|].
  apply part_app; [auto|now apply part_raw].
Qed.

(** *** Comments taken over from the data base *)

Lemma lines_acc : forall q racc r, no_nl q = true -> lines_aux racc (q ++ r) = lines_aux (rev_string q ++ racc) r.
Proof.
  induction q as [|b q IH]; intros racc r N; [reflexivity|]. unfold no_nl in *. cbn [has_char] in N.
  rewrite negb_orb in N. apply andb_true_iff in N. destruct N as [N1 N2]. cbn [String.append lines_aux].
  destruct (Ascii.eqb_spec b NL) as [->|]; [discriminate|]. rewrite IH by auto.
  rewrite rev_cons, app_assoc. reflexivity.
Qed.
Lemma replace_lines : forall p c racc, no_nl p = true ->
  Forall (fun l => exists r, l = rev_string racc ++ r \/ l = p ++ r) (lines_aux racc (replace_nl p c ++ nl)).
Proof.
  intros p. induction c as [|a c IH]; intros racc P.
  - cbn. constructor; [|constructor]. exists "". left. now rewrite app_nil_r.
  - cbn [replace_nl]. destruct (Ascii.eqb a NL) eqn:E.
    + cbn [String.append lines_aux]. change (Ascii.eqb NL NL) with true. cbv iota.
      constructor; [exists ""; left; now rewrite app_nil_r|].
      rewrite app_assoc, lines_acc by auto. rewrite app_nil_r. specialize (IH (rev_string p) P).
      eapply Forall_impl; [|exact IH]. intros l (r & [X|X]); exists r; right; auto. now rewrite X, rev_rev.
    + cbn [String.append lines_aux]. rewrite E. specialize (IH (String a racc) P).
      eapply Forall_impl; [|exact IH]. intros l (r & [X|X]); [|exists r; auto]. exists (String a r). left.
      rewrite X, rev_cons, app_assoc. reflexivity.
Qed.
Lemma lines_append : forall (P : string -> Prop) s, Forall P (lines (s ++ nl)) -> Forall P (lines (append_s s)).
Proof.
  intros P s F. unfold append_s. destruct (last_char s) as [c|] eqn:E.
  - destruct (Ascii.eqb c NL) eqn:N; [|exact F].
    assert (X : append_s s = s) by (unfold append_s; now rewrite E, N).
    pose proof (append_s_full s) as G. rewrite X in G. rewrite lines_full in F by auto.
    apply Forall_app in F. apply F.
  - destruct s; [exact F|]. exfalso. clear F. revert a E. induction s; intros b E; [discriminate|]. cbn [last_char] in *. eauto.
Qed.
(** every line of a comment taken over keeps the prefix *)
Lemma comment_lines : forall p c, no_nl p = true ->
  Forall (fun l => exists r, l = p ++ r) (lines (append_s (p ++ replace_nl p c))).
Proof.
  intros p c N. apply lines_append. rewrite app_assoc. unfold lines. rewrite lines_acc by auto. rewrite app_nil_r.
  eapply Forall_impl; [|apply (replace_lines p c (rev_string p) N)]. intros l (r & [X|X]); exists r; auto.
  now rewrite X, rev_rev.
Qed.
Lemma bp_comment : forall p c, no_nl p = true -> (forall r, directive (p ++ r) = None) ->
  bpart [append_s (p ++ replace_nl p c)].
Proof.
  intros p c N D. eexists. split; [apply part_full, append_s_full|]. apply bal_plains.
  eapply Forall_impl; [|now apply comment_lines]. intros l [r ->]. apply D.
Qed.

(** ** Numbers in the text *)

Lemma digits_len : forall up b f n acc, (String.length (digits_aux up b f n acc) <= f + String.length acc)%nat.
Proof.
  intros up b. induction f as [|f IH]; intros n acc; cbn [digits_aux]; [lia|]. cbv zeta.
  destruct (n <? b)%N; [cbn [String.length]; lia|]. etransitivity; [apply IH|]. cbn [String.length]. lia.
Qed.
Lemma print_base_len : forall up b n, (n < 2 ^ 64)%N -> (String.length (print_base up b n) <= 64)%nat.
Proof.
  intros up b n H. unfold print_base. etransitivity; [apply digits_len|]. cbn [String.length].
  destruct (N.eq_dec n 0) as [->|Z]; [cbn; lia|].
  assert (N.log2 n < 64)%N by (apply N.log2_lt_pow2; lia). lia.
Qed.
Lemma digits_all : forall p up b, (forall d, (d < b)%N -> p (xdigit_chr up d) = true) -> (0 < b)%N ->
  forall f n acc, all_chars p acc = true -> all_chars p (digits_aux up b f n acc) = true.
Proof.
  intros p up b P B. induction f as [|f IH]; intros n acc A; cbn [digits_aux]; [auto|]. cbv zeta.
  assert (X : all_chars p (String (xdigit_chr up (n mod b)) acc) = true).
  { cbn [all_chars]. rewrite A, P; [reflexivity|]. apply N.mod_lt. lia. }
  destruct (n <? b)%N; auto.
Qed.
Lemma hexl_idchars : forall n, all_chars is_idchar (hexl n) = true.
Proof.
  intros n. unfold hexl, print_base. apply digits_all; [|lia|reflexivity]. intros d D.
  assert (F : forallb (fun k => is_idchar (xdigit_chr false (N.of_nat k))) (seq 0 16) = true) by reflexivity.
  rewrite forallb_forall in F. specialize (F (N.to_nat d)). rewrite N2Nat.id in F. apply F. apply in_seq. lia.
Qed.
Lemma px_nonl : forall z, no_nl (px z) = true.
Proof.
  intros z. unfold px. destruct (z =? 0)%Z; [reflexivity|]. rewrite no_nl_app, (no_nl_ident _ (hexl_idchars _)). reflexivity.
Qed.
Lemma decZ_nonl : forall z, no_nl (decZ z) = true.
Proof.
  intros z. unfold decZ. destruct (z <? 0)%Z; [rewrite no_nl_app|]; now rewrite ?(no_nl_ident _ (dec_idchars _)).
Qed.
Lemma decZ_len : forall z, (- 2 ^ 63 <= z < 2 ^ 63)%Z -> (String.length (decZ z) <= 65)%nat.
Proof.
  intros z H. unfold decZ, dec. destruct (Z.ltb_spec z 0).
  - rewrite app_len. cbn [String.length]. pose proof (print_base_len true 10 (Z.to_N (- z)) ltac:(lia)). lia.
  - pose proof (print_base_len true 10 (Z.to_N z) ltac:(lia)). lia.
Qed.
Lemma px_len : forall z, (z < 2 ^ 64)%Z -> (String.length (px z) <= 66)%nat.
Proof.
  intros z H. unfold px, hexl. destruct (z =? 0)%Z; [cbn; lia|]. rewrite app_len. cbn [String.length].
  pose proof (print_base_len false 16 (Z.to_N z) ltac:(lia)). lia.
Qed.
Lemma pu_len : forall z, (z < 2 ^ 64)%Z -> (String.length (pu z) <= 64)%nat.
Proof. intros z H. apply print_base_len. lia. Qed.
Lemma swrap_in : forall z, (- 2 ^ 31 <= swrap 32 z < 2 ^ 31)%Z.
Proof. intros z. apply (swrap_range 32 z). lia. Qed.

Lemma no_nl_repeat : forall n c, c <> NL -> no_nl (repeat_char n c) = true.
Proof.
  intros n c N. unfold no_nl. induction n; [reflexivity|]. cbn [repeat_char has_char].
  destruct (Ascii.eqb_spec NL c); [congruence|exact IHn].
Qed.
Lemma len_repeat : forall n c, String.length (repeat_char n c) = n.
Proof. induction n; intros; cbn; auto. Qed.
Lemma no_nl_sub : forall s i n, no_nl s = true -> no_nl (substring i n s) = true.
Proof.
  unfold no_nl. induction s as [|c s IH]; intros i n H; [destruct i, n; reflexivity|].
  cbn [has_char] in H. rewrite negb_orb in H. apply andb_true_iff in H. destruct H as [H1 H2].
  destruct i as [|i]; destruct n as [|n]; cbn [substring]; auto.
  cbn [has_char]. rewrite negb_orb, H1. cbn. auto.
Qed.
Lemma fixed10_nonl : forall d, no_nl (fixed10 d) = true.
Proof.
  assert (X : forall (s : bool) n, no_nl ((if s then "-" else "") ++ dec (n / 10 ^ 10) ++ "." ++ pad_left 10 "0" (dec (n mod 10 ^ 10))) = true).
  { intros s n. unfold pad_left. rewrite !no_nl_app, !(no_nl_ident _ (dec_idchars _)), no_nl_repeat by discriminate. now destruct s. }
  intros [s|s| |s m e]; cbn [fixed10]; auto. now destruct s.
Qed.
Lemma prt_nonl : forall d k, no_nl (prt_double d k) = true.
Proof.
  intros d k. pose proof (fixed10_nonl d) as F. unfold prt_double. destruct (index 0 "." (fixed10 d)).
  - cbv zeta. match goal with |- context [if ?b then _ else _] => destruct b end.
    + rewrite no_nl_app, no_nl_sub by auto. reflexivity.
    + now apply no_nl_sub.
  - rewrite no_nl_app, F. reflexivity.
Qed.

(** ** Struct fields *)

Ltac nonls := nonl; repeat match goal with H : no_nl _ = true |- _ => rewrite H end; rewrite ?pu_nonl, ?px_nonl, ?decZ_nonl, ?prt_nonl; try reflexivity.
Ltac raw := apply raw_intro; [nonls | rewrite ?app_len; cbn [String.length]; try lia].

Lemma dir_sp : forall s, directive (" " ++ s) = None.
Proof. reflexivity. Qed.
Lemma dir_cons : forall c s, c <> "#"%char -> directive (String c s) = None.
Proof. intros c s N. cbn. destruct c as [[] [] [] [] [] [] [] []]; try reflexivity. now contradiction N. Qed.
Lemma dword_endif : forall t, end_tail t -> dword ("#endif" ++ t) = Some "endif".
Proof. intros t E. unfold dword. destruct (directive_endif t E) as [r ->]. reflexivity. Qed.
Lemma endif_tail : forall x, dword ("#endif // " ++ x) = Some "endif".
Proof. intros x. apply (dword_endif (" // " ++ x)). right. eexists. reflexivity. Qed.

Lemma cut_nonl : forall n s, no_nl s = true -> no_nl (cut n s) = true.
Proof. intros. now apply no_nl_sub. Qed.
Lemma indent_nonl : forall n s, no_nl s = true -> no_nl (indented_string n s) = true.
Proof.
  intros n s H. unfold indented_string. destruct (n <=? String.length s)%nat; [auto|].
  rewrite no_nl_app, H, no_nl_repeat by discriminate. reflexivity.
Qed.
Lemma Ok_inj : forall A (a b : A), Ok a = Ok b -> a = b.
Proof. intros A a b H. now injection H. Qed.
Lemma info_nonl : forall sg c, info_comment sg = Ok c -> no_nl (s_unit sg) = true -> no_nl c = true.
Proof.
  intros sg c E U. unfold info_comment in E. cbv zeta in E.
  assert (X : forall o (w : string), no_nl w = true ->
    no_nl (if has_text (s_unit sg) then indented_string o w ++ str_print (" Unit:'" ++ s_unit sg ++ "'") else w) = true).
  { intros o w W. destruct (has_text (s_unit sg)); [|auto]. rewrite no_nl_app, indent_nonl by auto. apply cut_nonl. nonls. }
  assert (D : forall o (w : string) d, no_nl w = true -> no_nl (indented_string o w ++ " Factor= " ++ prt_double d 9) = true).
  { intros o w d W. rewrite no_nl_app, indent_nonl by auto. nonls. }
  assert (F : forall o (w : string) z, no_nl w = true -> no_nl (indented_string o w ++ str_print (" Factor= " ++ decZ z)) = true).
  { intros o w z W. rewrite no_nl_app, indent_nonl by auto. apply cut_nonl. nonls. }
  destruct (s_double sg).
  - destruct (deqb (s_offset sg) _), (deqb (s_factor sg) _); cbn [bind] in E; apply Ok_inj in E; rewrite <- E; apply X; try reflexivity;
      try apply D; nonls.
  - destruct (s_simple sg); [cbn [bind] in E; apply Ok_inj in E; rewrite <- E; now apply X|].
    destruct (deqb (s_offset sg) _); cbn [bind] in E.
    + destruct (deqb (s_factor sg) _); [cbn [bind] in E; apply Ok_inj in E; rewrite <- E; now apply X|].
      destruct (cast_i32 (s_factor sg)); cbn [bind] in E; try discriminate. apply Ok_inj in E; rewrite <- E. apply X, F. reflexivity.
    + destruct (cast_i32 (s_offset sg)) as [z| |]; cbn [bind] in E; try discriminate.
      assert (O : no_nl ("" ++ str_print (" Offset= " ++ decZ z)) = true).
      { rewrite no_nl_app. apply cut_nonl. nonls. }
      destruct (deqb (s_factor sg) _); [cbn [bind] in E; apply Ok_inj in E; rewrite <- E; now apply X|].
      destruct (cast_i32 (s_factor sg)); cbn [bind] in E; try discriminate. apply Ok_inj in E; rewrite <- E. apply X, F, O.
Qed.
Lemma decl_shape : forall sg bits w t, field_decl sg bits w = Ok t -> no_nl (s_name sg) = true ->
  no_nl t = true /\ exists r, t = String " " r.
Proof.
  intros sg bits w t E N. unfold field_decl in E. cbv zeta in E.
  destruct (_ <? _)%nat; [discriminate|]. apply Ok_inj in E; rewrite <- E; clear E. split; [|eexists; reflexivity].
  rewrite !no_nl_app, no_nl_type, N, no_nl_repeat by discriminate.
  destruct (bits && _); [|reflexivity]. unfold str_print. rewrite cut_nonl; [reflexivity|]. nonls.
Qed.

Lemma field_bp : forall g bits w sg fs, sig_struct_field g bits w sg = Ok fs -> gen_ok g ->
  no_nl (s_name sg) = true -> no_nl (s_unit sg) = true ->
  (s_simple sg = false -> is_ident (s_namefloat sg) = true /\ (String.length (s_namefloat sg) <= 1010)%nat) ->
  bpart fs.
Proof.
  intros g bits w sg fs E GO N U P. unfold sig_struct_field in E.
  destruct (field_decl sg bits w) as [decl| |] eqn:ED; cbn [bind] in E; try discriminate.
  destruct (info_comment sg) as [info| |] eqn:EI; cbn [bind] in E; try discriminate. apply Ok_inj in E; rewrite <- E; clear E.
  destruct (decl_shape _ _ _ _ ED N) as [ND [dr DR]]. pose proof (info_nonl _ _ EI U) as NI.
  pose proof (no_nl_ident' _ (go_sigfloat g GO)) as NF. destruct (go_len g GO) as (G1 & _).
  apply bpart_app; [|apply bpart_app; [|apply bpart_app; [|apply bpart_app]]].
  - destruct (has_text (s_comment sg)); [|apply bpart_nil]. apply bp_comment; [reflexivity|]. intros r. reflexivity.
  - destruct (has_text (s_valtext sg)); [|apply bpart_nil]. apply bp_comment; [reflexivity|]. intros r. reflexivity.
  - destruct (s_mux sg); [apply bpart_nil| |]; apply bp_plain; try reflexivity; apply raw_intro; try reflexivity; cbn; lia.
  - change [decl; (" // " ++ (if s_signed sg then " [-]" else "    "))%string; text_f (" Bits=" ++ pd2 (s_len sg)); info; L ""; nls 1]
      with ([decl; (" // " ++ (if s_signed sg then " [-]" else "    "))%string; text_f (" Bits=" ++ pd2 (s_len sg)); info; L ""] ++ [nls 1])%list.
    apply bpart_app; [|apply bp_nls].
    set (a := (" // " ++ (if s_signed sg then " [-]" else "    "))%string). set (b := text_f _).
    exists [(decl ++ a ++ b ++ info)%string]. split.
    + intros r. cbn [sconcat]. change (L "") with (String NL ""). rewrite app_nil_r.
      transitivity (lines ((decl ++ a ++ b ++ info) ++ String NL r)); [now rewrite !app_assoc|].
      apply lines_line. rewrite !no_nl_app, ND, NI. assert (X : no_nl a = true) by (subst a; destruct (s_signed sg); reflexivity).
      assert (Y : no_nl b = true).
      { subst b. apply cut_nonl. unfold pd2, pad_left. rewrite !no_nl_app, decZ_nonl, no_nl_repeat by discriminate. reflexivity. }
      now rewrite X, Y.
    + apply bal_plains. constructor; [|constructor]. rewrite DR. reflexivity.
  - destruct (s_simple sg) eqn:SS; [apply bpart_nil|]. destruct (P eq_refl) as [P1 P2].
    pose proof (no_nl_ident' _ P1) as NP.
    match goal with |- bpart [?i; ?x; ?e; ?n] => change [i; x; e; n] with ((i :: [x] ++ [e]) ++ [n])%list end.
    apply bpart_app; [|apply bp_nls]. apply bp_if; [raw|raw| |apply endif_tail|].
    + apply opens_ifdef. apply GO.
    + destruct (s_double sg); apply bp_plain; try reflexivity; [raw|].
      pose proof (no_nl_type (s_typephys sg)). assert (String.length (print_type (s_typephys sg)) <= 10)%nat by (destruct (s_typephys sg); cbn; lia). raw.
Qed.

(** ** Conversion macros *)

(** texts of the three macros of a scaled signal after the name *)
Definition conv_texts (sg : signal) : res (string * string * string) :=
  let pf := prt_double (s_factor sg) 9 in
  let po := prt_double (s_offset sg) 9 in
  let ty := print_type (s_typero sg) in
  if s_double sg then
    Ok ("_CovFactor (" ++ pf ++ ")", "_toS(x) ( (" ++ ty ++ ") (((x) - (" ++ po ++ ")) / (" ++ pf ++ ")) )",
        "_fromS(x) ( (((x) * (" ++ pf ++ ")) + (" ++ po ++ ")) )")
  else
    do fac <- cast_i32 (s_factor sg);
    let f := decZ fac in
    let cov := "_CovFactor (" ++ f ++ ")" in
    if deqb (s_offset sg) (SpecFloat.S754_zero false) then
      Ok (cov, "_toS(x) ( (" ++ ty ++ ") ((x) / (" ++ f ++ ")) )", "_fromS(x) ( ((x) * (" ++ f ++ ")) )")
    else
      do off <- cast_i32 (s_offset sg);
      let o := decZ off in
      if deqb (s_factor sg) (dbl_of_Z 1) then
        Ok (cov, "_toS(x) ( (" ++ ty ++ ") ((x) - (" ++ o ++ ")) )", "_fromS(x) ( ((x) + (" ++ o ++ ")) )")
      else
        Ok (cov, "_toS(x) ( (" ++ ty ++ ") (((x) - (" ++ o ++ ")) / (" ++ f ++ ")) )",
            "_fromS(x) ( (((x) * (" ++ f ++ ")) + (" ++ o ++ ")) )").

Lemma cast_i32_range : forall d z, cast_i32 d = Ok z -> (- 2 ^ 31 <= z < 2 ^ 31)%Z.
Proof.
  intros d z E. unfold cast_i32 in E. destruct (dtrunc d); [|discriminate].
  destruct (_ && _) eqn:B; [|discriminate]. apply Ok_inj in E; rewrite <- E; clear E. apply andb_true_iff in B. destruct B. lia.
Qed.
Lemma str_print_short : forall s, (Z.of_nat (String.length s) < 4096)%Z -> str_print s = s.
Proof. intros s H. unfold str_print. apply cut_short. apply Nat2Z.inj_lt. replace (Z.of_nat 4096) with 4096%Z by (vm_compute; reflexivity). exact H. Qed.

Definition conv_head (D : string) (sg : signal) : string := D ++ "_" ++ s_name sg.

Lemma append_nl : forall s, append_s (s ++ nl) = s ++ nl.
Proof. intros s. unfold append_s. rewrite last_char_app by discriminate. reflexivity. Qed.

Lemma ptr_part : forall sg D t, print_physical_to_raw sg D = Ok t -> no_nl D = true -> no_nl (s_name sg) = true ->
  (String.length D <= 1000)%nat -> (String.length (s_name sg) <= 1000)%nat ->
  (String.length (prt_double (s_factor sg) 9) <= 400)%nat -> (String.length (prt_double (s_offset sg) 9) <= 400)%nat ->
  exists a b c, conv_texts sg = Ok (a, b, c) /\
    part [append_s t] [("// signal: @" ++ s_name sg)%string; ("#define " ++ conv_head D sg ++ a)%string;
                       ("#define " ++ conv_head D sg ++ b)%string; ("#define " ++ conv_head D sg ++ c)%string].
Proof.
  intros sg D t E ND NN LD LN LF LO. unfold print_physical_to_raw in E. cbv zeta in E.
  unfold conv_texts, conv_head. cbv zeta.
  pose proof (no_nl_type (s_typero sg)) as NT.
  assert (LT : (String.length (print_type (s_typero sg)) <= 10)%nat) by (destruct (s_typero sg); cbn; lia).
  assert (FIN : forall q, no_nl q = true -> True) by auto.
  assert (GO : forall h a b c, no_nl h = true -> no_nl a = true -> no_nl b = true -> no_nl c = true ->
    part [append_s (h ++ nl ++ a ++ nl ++ b ++ nl ++ c ++ nl)] [h; a; b; c]).
  { intros h a b c H A B C r. cbn [sconcat]. rewrite app_nil_r.
    replace (h ++ nl ++ a ++ nl ++ b ++ nl ++ c ++ nl) with ((h ++ nl ++ a ++ nl ++ b ++ nl ++ c) ++ nl) by now rewrite !app_assoc.
    rewrite append_nl. rewrite !app_assoc. unfold nl. cbn [String.append].
    do 4 (rewrite lines_line by auto). reflexivity. }
  destruct (s_double sg).
  - apply Ok_inj in E; rewrite <- E; clear E. rewrite !str_print_short by (rewrite ?app_len; cbn [String.length nl]; lia).
    do 3 eexists. split; [reflexivity|]. match goal with |- part [append_s ?t] [?h; ?a; ?b; ?c] => replace t with (h ++ nl ++ a ++ nl ++ b ++ nl ++ c ++ nl) end;
      [apply GO; nonls|rewrite !app_assoc; cbn [String.append]; reflexivity].
  - destruct (cast_i32 (s_factor sg)) as [fac| |] eqn:EF; cbn [bind] in *; try discriminate.
    pose proof (decZ_len fac ltac:(pose proof (cast_i32_range _ _ EF); lia)) as L1.
    destruct (deqb (s_offset sg) _).
    + apply Ok_inj in E; rewrite <- E; clear E. rewrite !str_print_short by (rewrite ?app_len; cbn [String.length nl]; lia).
      do 3 eexists. split; [reflexivity|]. match goal with |- part [append_s ?t] [?h; ?a; ?b; ?c] => replace t with (h ++ nl ++ a ++ nl ++ b ++ nl ++ c ++ nl) end;
      [apply GO; nonls|rewrite !app_assoc; cbn [String.append]; reflexivity].
    + destruct (cast_i32 (s_offset sg)) as [off| |] eqn:EO; cbn [bind] in *; try discriminate.
      pose proof (decZ_len off ltac:(pose proof (cast_i32_range _ _ EO); lia)) as L2.
      destruct (deqb (s_factor sg) _).
      * apply Ok_inj in E; rewrite <- E; clear E. rewrite !str_print_short by (rewrite ?app_len; cbn [String.length nl]; lia).
        do 3 eexists. split; [reflexivity|]. match goal with |- part [append_s ?t] [?h; ?a; ?b; ?c] => replace t with (h ++ nl ++ a ++ nl ++ b ++ nl ++ c ++ nl) end;
      [apply GO; nonls|rewrite !app_assoc; cbn [String.append]; reflexivity].
      * apply Ok_inj in E; rewrite <- E; clear E. rewrite !str_print_short by (rewrite ?app_len; cbn [String.length nl]; lia).
        do 3 eexists. split; [reflexivity|]. match goal with |- part [append_s ?t] [?h; ?a; ?b; ?c] => replace t with (h ++ nl ++ a ++ nl ++ b ++ nl ++ c ++ nl) end;
      [apply GO; nonls|rewrite !app_assoc; cbn [String.append]; reflexivity].
Qed.

(** ** Parts outside of any conditional *)

Definition at_top (ps p : list string) : Prop := exists a b, ps = (a ++ p ++ b)%list /\ bpart a /\ bpart b.
Lemma top_self : forall p, at_top p p.
Proof. intros p. exists [], []. repeat split; try apply bpart_nil. cbn. now rewrite List.app_nil_r. Qed.
Lemma top_l : forall ps x p, at_top ps p -> bpart x -> at_top (ps ++ x) p.
Proof.
  intros ps x p (a & b & -> & A & B) X. exists a, (b ++ x)%list. split; [now rewrite !List.app_assoc|].
  split; [auto|now apply bpart_app].
Qed.
Lemma top_r : forall ps x p, at_top ps p -> bpart x -> at_top (x ++ ps) p.
Proof.
  intros ps x p (a & b & -> & A & B) X. exists (x ++ a)%list, b. split; [now rewrite !List.app_assoc|].
  split; [now apply bpart_app|auto].
Qed.
Lemma top_mid : forall x p y, bpart x -> bpart y -> at_top (x ++ p ++ y) p.
Proof. intros. exists x, y. auto. Qed.
Lemma top_trans : forall a b c, at_top a b -> at_top b c -> at_top a c.
Proof.
  intros a b c (x & y & -> & X & Y) (z & w & -> & Z & W). exists (x ++ z)%list, (w ++ y)%list.
  split; [now rewrite !List.app_assoc|]. split; apply bpart_app; auto.
Qed.

(** a #define outside of conditionals that is the only one of its name *)
Lemma found_define : forall M ps ls l1 s l2, at_top ps ls -> part ls (l1 ++ ("#define " ++ s)%string :: l2) ->
  bal l1 -> def_head s -> once (fst (pp_define s)) (sconcat ps) ->
  lookup (fst (pp_define s)) (after_header M (sconcat ps)) = Some (snd (pp_define s)).
Proof.
  intros M ps ls l1 s l2 (a & b & E & (la & PA & BA) & (lb & PB & BB)) P B1 D O.
  assert (LN : lines (sconcat ps) = ((la ++ l1) ++ ("#define " ++ s)%string :: (l2 ++ lb))%list).
  { rewrite E. rewrite (part_lines _ _ (part_app _ _ _ _ PA (part_app _ _ _ _ P PB))).
    cbn [List.app]. now rewrite <- !List.app_assoc. }
  unfold after_header, once in *. rewrite LN in *. apply top_define; auto. now apply bal_app.
Qed.
Lemma found_guarded : forall M ps ls c e s x, at_top ps ls -> part ls (("#ifndef " ++ x)%string :: c ++ [("#define " ++ s)%string; e]) ->
  is_ident x = true -> def_head s -> fst (pp_define s) = x -> bal c -> ~ In x (defines c) -> dword e = Some "endif" ->
  once x (sconcat ps) ->
  lookup x (after_header M (sconcat ps)) = match lookup x M with Some mc => Some mc | None => Some (snd (pp_define s)) end.
Proof.
  intros M ps ls c e s x (a & b & E & (la & PA & BA) & (lb & PB & BB)) P I D FX BC NC EE O.
  assert (LN : lines (sconcat ps) = (la ++ (("#ifndef " ++ x)%string :: c ++ [("#define " ++ s)%string; e]) ++ lb)%list).
  { rewrite E. now rewrite (part_lines _ _ (part_app _ _ _ _ PA (part_app _ _ _ _ P PB))). }
  unfold after_header, once in *. rewrite LN in *. apply guarded_define; auto.
Qed.
(** a macro without a #define in the text keeps its meaning *)
Lemma not_defined : forall M h x, ~ In x (defines (lines h)) -> lookup x (after_header M h) = lookup x M.
Proof. intros M h x N. unfold after_header, pp_run. fold (runs {| pp_macros := M; pp_stack := []; pp_out := [] |} (lines h)). now rewrite runs_keep. Qed.

(** ** Messages *)

Lemma ident_head : forall x r, is_ident x = true -> def_head (x ++ r).
Proof.
  intros [|c x] r I; [discriminate|]. exists c, (x ++ r). split; [reflexivity|].
  pose proof (ident_chars _ I) as A. cbn [all_chars] in A. now apply andb_true_iff in A.
Qed.

Record hmsg_ok (m : message) : Prop := {
  hk_msg : msg_ok m;
  hk_sigs : forall sg, In sg (g_sigs m) -> header_sig_ok sg
}.

Definition const_line (m : message) (k v : string) : string := "#define " ++ g_name m ++ k ++ v.
Definition consts (m : message) : list (string * string) :=
  ([("_IDE", " (" ++ pu (g_ext m) ++ "U)"); ("_DLC", " (" ++ pu (g_dlc m) ++ "U)");
   ("_CANID", " (" ++ px (g_id m) ++ "U)")]%string ++
  (if (0 <? g_cycle m)%Z then [("_CYC", " (" ++ decZ (swrap 32 (g_cycle m)) ++ "U)")] else [])%string)%list.

Lemma const_raw : forall m k v, msg_ok m -> In (k, v) (consts m) -> raw_ok (const_line m k v).
Proof.
  intros m k v MO I. pose proof (no_nl_ident' _ (mo_name m MO)) as N. pose proof (mo_name_len m MO) as LN.
  pose proof (mo_dlc m MO). pose proof (mo_id m MO). pose proof (mo_ext m MO).
  pose proof (pu_len (g_ext m) ltac:(lia)). pose proof (pu_len (g_dlc m) ltac:(lia)). pose proof (px_len (g_id m) ltac:(lia)).
  pose proof (decZ_len (swrap 32 (g_cycle m)) ltac:(pose proof (swrap_in (g_cycle m)); lia)).
  unfold const_line, consts in *. apply in_app_iff in I. destruct I as [I|I].
  - cbn [In] in I. destruct I as [X|[X|[X|[]]]]; apply pair_equal_spec in X; destruct X as [<- <-]; raw.
  - destruct (0 <? g_cycle m)%Z; [|contradiction]. destruct I as [X|[]]; apply pair_equal_spec in X; destruct X as [<- <-]; raw.
Qed.

Lemma msg_comment_bp : forall m, bpart (if has_text (g_comment m) then [append_s ("// " ++ replace_nl "// " (g_comment m))] else []).
Proof. intros m. destruct (has_text (g_comment m)); [|apply bpart_nil]. apply bp_comment; reflexivity. Qed.
Lemma msg_def_bp : forall m, msg_ok m -> bpart [L ("// def @" ++ g_name m ++ " CAN Message (" ++ pd4l (swrap 32 (g_id m)) ++ " "
              ++ px (g_id m) ++ ")")].
Proof.
  intros m MO. pose proof (no_nl_ident' _ (mo_name m MO)) as N. pose proof (mo_name_len m MO) as LN.
  pose proof (mo_id m MO). pose proof (px_len (g_id m) ltac:(lia)).
  pose proof (decZ_len (swrap 32 (g_id m)) ltac:(pose proof (swrap_in (g_id m)); lia)) as LZ.
  assert (NP : no_nl (pd4l (swrap 32 (g_id m))) = true).
  { unfold pd4l, pad_right. rewrite no_nl_app, decZ_nonl, no_nl_repeat by discriminate. reflexivity. }
  assert (LP : (String.length (pd4l (swrap 32 (g_id m))) <= 70)%nat).
  { unfold pd4l, pad_right. rewrite app_len, len_repeat. lia. }
  apply bp_plain; [raw|reflexivity].
Qed.
Lemma cyc_bp : forall m, msg_ok m -> bpart (if (0 <? g_cycle m)%Z
         then [L ("#define " ++ g_name m ++ "_CYC (" ++ decZ (swrap 32 (g_cycle m)) ++ "U)")] else []).
Proof.
  intros m MO. pose proof (no_nl_ident' _ (mo_name m MO)) as N. pose proof (mo_name_len m MO) as LN.
  pose proof (decZ_len (swrap 32 (g_cycle m)) ltac:(pose proof (swrap_in (g_cycle m)); lia)) as LZ.
  destruct (0 <? g_cycle m)%Z; [|apply bpart_nil]. apply bp_def; [raw|]. apply ident_head, MO.
Qed.
Lemma const_bp : forall m k v, msg_ok m -> In (k, v) (consts m) -> bpart [L (const_line m k v)].
Proof.
  intros m k v MO I. apply bp_def; [now apply const_raw|]. apply ident_head, MO.
Qed.
Lemma consts_top : forall m, msg_ok m ->
  bpart (msg_consts m) /\ forall k v, In (k, v) (consts m) -> at_top (msg_consts m) [L (const_line m k v)].
Proof.
  intros m MO. unfold msg_consts.
  pose proof (msg_comment_bp m) as B1. pose proof (msg_def_bp m MO) as B2. pose proof (cyc_bp m MO) as B3.
  set (C := if has_text (g_comment m) then _ else _) in *. set (Y := if (0 <? g_cycle m)%Z then _ else _) in *.
  set (D := L ("// def @" ++ _)) in *.
  assert (B4 : forall k v, In (k, v) (consts m) -> bpart [L (const_line m k v)]) by (intros; now apply const_bp).
  set (p1 := L ("#define " ++ g_name m ++ "_IDE (" ++ _)).
  set (p2 := L ("#define " ++ g_name m ++ "_DLC (" ++ _)). set (p3 := L ("#define " ++ g_name m ++ "_CANID (" ++ _)).
  assert (E1 : bpart [p1]) by (apply (B4 "_IDE" (" (" ++ pu (g_ext m) ++ "U)")%string), in_app_iff; left; cbn; auto).
  assert (E2 : bpart [p2]) by (apply (B4 "_DLC" (" (" ++ pu (g_dlc m) ++ "U)")%string), in_app_iff; left; cbn; auto).
  assert (E3 : bpart [p3]) by (apply (B4 "_CANID" (" (" ++ px (g_id m) ++ "U)")%string), in_app_iff; left; cbn; auto).
  clear B4. split.
  - apply bpart_app; [auto|]. apply bpart_app; [|auto].
    repeat (apply bpart_cons; [assumption|]). apply bpart_nil.
  - intros k v I. apply top_r; auto. unfold consts in I. apply in_app_iff in I. destruct I as [I|I].
    2: { apply top_r; [|repeat (apply bpart_cons; [assumption|]); apply bpart_nil]. unfold Y. destruct (0 <? g_cycle m)%Z; [|contradiction].
         destruct I as [X|[]]; apply pair_equal_spec in X; destruct X as [<- <-]. exact (top_self _). }
    apply top_l; auto. cbn [In] in I. destruct I as [X|[X|[X|[]]]]; apply pair_equal_spec in X; destruct X as [<- <-].
    + apply (top_mid [D] [p1] [p2; p3]); auto. apply bpart_cons; auto.
    + apply (top_mid [D; p1] [p2] [p3]); auto. apply bpart_cons; auto.
    + apply (top_mid [D; p1; p2] [p3] []); auto using bpart_nil. apply bpart_cons; auto. apply bpart_cons; auto.
Qed.

(** ** Value tables *)

Definition table_name (m : message) (sg : signal) (t : string) : string := s_name sg ++ "_" ++ g_name m ++ "_" ++ t.
Definition table_lines (m : message) (sg : signal) (p : string * Z) : list string :=
  [("#ifndef " ++ table_name m sg (fst p))%string;
   ("#define " ++ table_name m sg (fst p) ++ " (" ++ decZ (swrap 32 (snd p)) ++ ")")%string; "#endif"].
Definition table_pieces (m : message) (sg : signal) (p : string * Z) : list string :=
  let defname := str_print (s_name sg ++ "_" ++ g_name m ++ "_" ++ fst p) in
  [L ("#ifndef " ++ defname);
   L ("#define " ++ s_name sg ++ "_" ++ g_name m ++ "_" ++ fst p ++ " (" ++ decZ (swrap 32 (snd p)) ++ ")");
   L "#endif"].

Lemma table_ident : forall m sg t, is_ident (s_name sg) = true -> is_ident (g_name m) = true -> all_chars is_idchar t = true ->
  is_ident (table_name m sg t) = true.
Proof.
  intros m sg t A B C. unfold table_name. apply ident_prefix; auto. rewrite !all_chars_app, (ident_chars _ B), C. reflexivity.
Qed.
Lemma table_part : forall m sg p, msg_ok m -> sig_ok (g_dlc m) sg -> header_sig_ok sg -> In p (s_valdefs sg) ->
  part (table_pieces m sg p) (table_lines m sg p) /\ bal (table_lines m sg p).
Proof.
  intros m sg [t v] MO SO HO I. destruct (hs_table sg HO t v I) as [T1 T2]. cbn [fst snd] in *.
  pose proof (no_nl_ident' _ (mo_name m MO)) as N1. pose proof (mo_name_len m MO) as L1.
  pose proof (no_nl_ident' _ (ok_name _ _ SO)) as N2. pose proof (ok_name_len _ _ SO) as L2.
  pose proof (no_nl_ident _ T1) as N3.
  pose proof (decZ_len (swrap 32 v) ltac:(pose proof (swrap_in v); lia)) as LZ.
  unfold table_pieces, table_lines. cbn [fst snd]. rewrite str_print_short by (rewrite !app_len; cbn [String.length]; lia).
  fold (table_name m sg t).
  assert (ID : is_ident (table_name m sg t) = true) by (apply table_ident; [apply (ok_name _ _ SO)|apply (mo_name _ MO)|exact T1]).
  assert (R1 : raw_ok ("#ifndef " ++ table_name m sg t)) by (unfold table_name; raw).
  assert (R2 : raw_ok ("#define " ++ table_name m sg t ++ " (" ++ decZ (swrap 32 v) ++ ")")) by (unfold table_name; raw).
  replace ("#define " ++ s_name sg ++ "_" ++ g_name m ++ "_" ++ t ++ " (" ++ decZ (swrap 32 v) ++ ")")
    with ("#define " ++ table_name m sg t ++ " (" ++ decZ (swrap 32 v) ++ ")") by (unfold table_name; now rewrite !app_assoc).
  split.
  - apply (part_app [_] [_] [_; _] [_; _]); [now apply part_raw|]. apply (part_app [_] [_] [_] [_]); [now apply part_raw|].
    apply part_raw. apply raw_intro; [reflexivity|cbn; lia].
  - apply (bal_if _ [_]); [apply opens_ifndef; auto|reflexivity|]. apply bal_plain. unfold dword. rewrite directive_define.
    + cbn. intuition discriminate.
    + now apply ident_head.
Qed.

Lemma vt_top : forall m sg, msg_ok m -> sig_ok (g_dlc m) sg -> header_sig_ok sg ->
  bpart (value_table m sg) /\ forall p, In p (s_valdefs sg) -> at_top (value_table m sg) (table_pieces m sg p).
Proof.
  intros m sg MO SO HO. unfold value_table.
  assert (B : forall p, In p (s_valdefs sg) -> bpart (table_pieces m sg p)).
  { intros p I. destruct (table_part m sg p MO SO HO I) as [A B]. eexists. eauto. }
  destruct (s_valdefs sg) as [|q0 qs] eqn:EV; [split; [apply bpart_nil|intros p []]|]. rewrite <- EV in *. clear EV.
  pose proof (no_nl_ident' _ (ok_name _ _ SO)) as N2. pose proof (ok_name_len _ _ SO) as L2.
  assert (H : bpart [L (nl ++ "// Value tables for @" ++ s_name sg ++ " signal"); nls 1]).
  { apply bpart_cons; [|apply bp_nls].
    exists [""; ("// Value tables for @" ++ s_name sg ++ " signal")%string]. split; [|apply bal_plains; repeat constructor].
    set (s := ("// Value tables for @" ++ s_name sg ++ " signal")%string). rewrite <- (lines_L2 "" s).
    - apply part_full, L_full.
    - reflexivity.
    - unfold s. nonls.
    - discriminate.
    - unfold s. rewrite !app_len. cbn [String.length]. lia. }
  match goal with |- context [(?a :: ?b :: ?r)%list] => change (a :: b :: r)%list with ([a; b] ++ r)%list end.
  assert (P : forall l, (forall p, In p l -> In p (s_valdefs sg)) ->
    let t := List.concat (map (fun p =>
         let defname := str_print (s_name sg ++ "_" ++ g_name m ++ "_" ++ fst p) in
         [L ("#ifndef " ++ defname);
          L ("#define " ++ s_name sg ++ "_" ++ g_name m ++ "_" ++ fst p ++ " ("
               ++ decZ (swrap 32 (snd p)) ++ ")");
          L "#endif"; nls 1]) l) in
    bpart t /\ forall p, In p l -> at_top t (table_pieces m sg p)).
  { induction l as [|p l IH]; intros S t; [split; [apply bpart_nil|intros p []]|]. subst t. cbn [map List.concat]. cbv zeta.
    destruct (IH (fun q I => S q (or_intror I))) as [I1 I2].
    match goal with |- bpart (?a ++ ?b) /\ _ => change a with (table_pieces m sg p ++ [nls 1])%list; set (r := b) in * end.
    assert (Bp : bpart (table_pieces m sg p)) by (apply B, S; now left).
    split.
    - apply bpart_app; [|exact I1]. apply bpart_app; [exact Bp|apply bp_nls].
    - intros q [<-|I].
      + apply top_l; [|exact I1]. apply top_l; [apply top_self|apply bp_nls].
      + apply top_r; [now apply I2|]. apply bpart_app; [exact Bp|apply bp_nls]. }
  destruct (P (s_valdefs sg) (fun p I => I)) as [P1 P2]. split; [now apply bpart_app|].
  intros p I. apply top_r; auto.
Qed.

(** ** Conversion macros of a message *)

Definition conv_lines (D : string) (sg : signal) (c : string * string * string) : list string :=
  let '(a, b, c) := c in
  [("// signal: @" ++ s_name sg)%string; ("#define " ++ conv_head D sg ++ a)%string;
   ("#define " ++ conv_head D sg ++ b)%string; ("#define " ++ conv_head D sg ++ c)%string].

Lemma conv_bal : forall D sg c, is_ident D = true -> bal (conv_lines D sg c).
Proof.
  intros D sg [[a b] c] I. unfold conv_lines.
  assert (X : forall s, bal ["#define " ++ conv_head D sg ++ s]).
  { intros s. apply bal_plain. unfold dword. rewrite directive_define; [cbn; intuition discriminate|].
    unfold conv_head. rewrite app_assoc. now apply ident_head. }
  apply bal_cons; [apply bal_plain; exact Logic.I|]. repeat (apply bal_cons; auto). 
Qed.

Definition has_conv (D : string) (ps : list string) (nm : string) (sgs : list signal) : Prop :=
  exists sg c p, In sg sgs /\ s_name sg = nm /\ s_simple sg = false /\ conv_texts sg = Ok c /\ at_top ps p /\ part p (conv_lines D sg c).

Lemma macros_top : forall g m sgs passed passed' t, gen_ok g -> msg_ok m -> (forall sg, In sg sgs -> In sg (g_sigs m)) ->
  (forall sg, In sg sgs -> header_sig_ok sg) -> sig_macros g m passed sgs = Ok (passed', t) ->
  bpart t /\
  (forall sg p, In sg sgs -> In p (s_valdefs sg) -> at_top t (table_pieces m sg p)) /\
  (forall x, In x passed' -> In x passed \/ has_conv (n_DRV g) t x sgs) /\
  (forall x, In x passed -> In x passed') /\
  (forall sg, In sg sgs -> s_simple sg = false -> In (s_name sg) passed').
Proof.
  intros g m sgs. induction sgs as [|sg r IH]; intros passed passed' t GO MO SS HO E.
  - injection E as <- <-. split; [apply bpart_nil|]. split; [intros sg p []|]. split; [auto|]. split; [auto|intros sg []].
  - cbn [sig_macros] in E.
    pose proof (mo_sigs m MO sg (SS sg (or_introl eq_refl))) as SO. pose proof (HO sg (or_introl eq_refl)) as HS.
    destruct (go_len g GO) as (_ & _ & _ & _ & G5 & _).
    destruct (vt_top m sg MO SO HS) as [V1 V2].
    set (first := if s_simple sg || smem (s_name sg) passed then _ else _) in E.
    assert (exists p1 t1, first = Ok (p1, t1) /\ bpart t1 /\ (forall x, In x p1 -> In x passed \/ has_conv (n_DRV g) t1 x [sg]) /\
              (forall x, In x passed -> In x p1) /\ (s_simple sg = false -> In (s_name sg) p1)) as (p1 & t1 & EF & F1 & F2 & F3 & F4).
    { subst first. destruct (s_simple sg) eqn:SI; cbn [orb] in *.
      - exists passed, []. repeat split; auto using bpart_nil. discriminate.
      - destruct (smem (s_name sg) passed) eqn:SM.
        + exists passed, []. repeat split; auto using bpart_nil. intros _. unfold smem in SM. apply existsb_exists in SM.
          destruct SM as (y & I & Y). apply String.eqb_eq in Y. now subst y.
        + destruct (print_physical_to_raw sg (n_DRV g)) as [tx| |] eqn:EP; cbn [bind] in E; try discriminate.
          destruct (ptr_part sg (n_DRV g) tx EP (no_nl_ident' _ (go_DRV g GO)) (no_nl_ident' _ (ok_name _ _ SO)) G5 (ok_name_len _ _ SO)
                     (proj1 (hs_nums _ HS)) (proj2 (hs_nums _ HS))) as (a & b & c & C1 & C2).
          assert (C3 : part [append_s tx] (conv_lines (n_DRV g) sg (a, b, c))) by exact C2.
          exists (s_name sg :: passed), [append_s tx]. split; [reflexivity|]. split.
          { eexists. split; [exact C3|]. apply conv_bal, GO. }
          split; [|split].
          * intros x [<-|I]; [right|now left]. exists sg, (a, b, c), [append_s tx].
            split; [now left|]. repeat split; auto using top_self.
          * intros x I. now right.
          * intros _. now left. }
    rewrite EF in E. cbn [bind] in E.
    destruct (sig_macros g m p1 r) as [[p2 ts]| |] eqn:ER; cbn [bind] in E; try discriminate. injection E as <- <-.
    destruct (IH p1 p2 ts GO MO (fun q I => SS q (or_intror I)) (fun q I => HO q (or_intror I)) ER) as (I1 & I2 & I3 & I4 & I5).
    split; [apply bpart_app; [auto|apply bpart_app; auto]|]. split; [|split; [|split]].
    + intros q p [<-|I] IP.
      * apply top_r; [|auto]. apply top_l; auto.
      * apply top_r; [|auto]. apply top_r; auto.
    + intros x X. destruct (I3 x X) as [Y|(sg' & c & p & A1 & A2 & A3 & A4 & A5 & A6)].
      * destruct (F2 x Y) as [Z|(sg' & c & p & A1 & A2 & A3 & A4 & A5 & A6)]; [now left|right].
        exists sg', c, p. split; [destruct A1 as [<-|[]]; now left|]. repeat split; auto.
        apply top_l; [auto|]. apply bpart_app; auto.
      * right. exists sg', c, p. split; [now right|]. repeat split; auto.
        apply top_r; [|auto]. apply top_r; auto.
    + intros x X. auto.
    + intros q [<-|I] S; auto.
Qed.

(** ** The struct *)

Lemma fields_bp : forall g m bits w fs, gen_ok g -> hmsg_ok m -> struct_fields g m bits w = Ok fs -> bpart fs.
Proof.
  intros g m bits w fs GO [MO HO] E. unfold struct_fields in E.
  destruct (map_res (sig_struct_field g bits w) (g_sigs m)) as [f| |] eqn:EF; cbn [bind] in E; try discriminate.
  assert (B1 : bpart (List.concat f)).
  { apply bpart_concat. clear E.
    assert (X : forall l f, (forall sg, In sg l -> In sg (g_sigs m)) -> map_res (sig_struct_field g bits w) l = Ok f -> Forall bpart f).
    { induction l as [|sg l IH]; intros f0 S EF0.
      - injection EF0 as <-. constructor.
      - cbn [map_res] in EF0. destruct (sig_struct_field g bits w sg) as [p| |] eqn:EP; cbn [bind] in EF0; try discriminate.
        destruct (map_res (sig_struct_field g bits w) l) as [q| |]; cbn [bind] in EF0; try discriminate. injection EF0 as <-.
        pose proof (mo_sigs m MO sg (S sg (or_introl eq_refl))) as SO. pose proof (HO sg (S sg (or_introl eq_refl))) as HS.
        constructor; [|apply IH; auto; intros; apply S; now right].
        apply (field_bp _ _ _ _ _ EP GO); [apply no_nl_ident', SO|apply HS|apply SO]. }
    eapply X; eauto. }
  destruct (roll_sig m) as [rs|] eqn:ER.
  - destruct (sig_struct_field g bits w (expt_sig rs)) as [p| |] eqn:EP; cbn [bind] in E; try discriminate. injection E as <-.
    assert (IR : In rs (g_sigs m)).
    { unfold roll_sig in ER. destruct (g_roll m); [|discriminate]. now apply nth_error_In in ER. }
    pose proof (mo_sigs m MO rs IR) as SO. pose proof (HO rs IR) as HS.
    apply bpart_app; [auto|]. pose proof (no_nl_ident' _ (go_roll g GO)) as NR. destruct (go_len g GO) as (_ & _ & G3 & _).
    change (bpart (L ("#ifdef " ++ n_useroll g) :: nls 1 :: p ++ [L ("#endif // " ++ n_useroll g); nls 1])%list).
    replace (L ("#ifdef " ++ n_useroll g) :: nls 1 :: p ++ [L ("#endif // " ++ n_useroll g); nls 1])%list
      with ((L ("#ifdef " ++ n_useroll g) :: (nls 1 :: p) ++ [L ("#endif // " ++ n_useroll g)]) ++ [nls 1])%list
      by (cbn [List.app]; now rewrite <- List.app_assoc).
    apply bpart_app; [|apply bp_nls]. apply bp_if; [raw|raw|apply opens_ifdef, GO|apply endif_tail|].
    apply bpart_cons; [apply bp_nls|]. apply (field_bp _ _ _ _ _ EP GO).
    + cbn [s_name expt_sig]. rewrite no_nl_app, (no_nl_ident' _ (ok_name _ _ SO)). reflexivity.
    + apply HS.
    + apply SO.
  - cbn [bind] in E. injection E as <-. apply bpart_app; auto using bpart_nil.
Qed.

Ltac lit := apply bp_plain; [apply raw_intro; [reflexivity|cbn; lia]|reflexivity].

Lemma msg_header_top : forall g m passed passed' t, src_ok g "" -> is_ident (n_usebits g) = true ->
  (String.length (n_usebits g) <= 1100)%nat -> hmsg_ok m ->
  msg_header g passed m = Ok (passed', t) ->
  bpart t /\ (forall k v, In (k, v) (consts m) -> at_top t [L (const_line m k v)]) /\
  (g_notempty m = true -> forall sg p, In sg (g_sigs m) -> In p (s_valdefs sg) -> at_top t (table_pieces m sg p)) /\
  (forall x, In x passed' -> In x passed \/ has_conv (n_DRV g) t x (g_sigs m)) /\
  (forall x, In x passed -> In x passed') /\
  (g_notempty m = true -> forall sg, In sg (g_sigs m) -> s_simple sg = false -> In (s_name sg) passed').
Proof.
  intros g m passed passed' t SG UB LB HM E. pose proof (so_gen _ _ SG) as GO.
  destruct (consts_top m (hk_msg _ HM)) as [C1 C2].
  unfold msg_header in E. destruct (g_notempty m); cbn [negb] in E.
  2: { apply Ok_inj in E; apply pair_equal_spec in E; destruct E as [<- <-]. split; [apply bpart_app; auto using bp_nls|]. split; [intros; apply top_l; auto using bp_nls|].
       split; [discriminate|]. split; [auto|]. split; [auto|discriminate]. }
  destruct (sig_macros g m passed (g_sigs m)) as [[p2 ms]| |] eqn:EM; cbn [bind] in E; try discriminate.
  destruct (macros_top g m (g_sigs m) passed p2 ms GO (hk_msg _ HM) (fun sg I => I) (hk_sigs _ HM) EM) as (M1 & M2 & M3 & M4 & M5).
  destruct (struct_fields g m true _) as [fb| |] eqn:EB; cbn [bind] in E; try discriminate.
  destruct (struct_fields g m false _) as [fp| |] eqn:EP; cbn [bind] in E; try discriminate. apply Ok_inj in E; apply pair_equal_spec in E; destruct E as [<- <-].
  pose proof (fields_bp _ _ _ _ _ GO HM EB) as BB. pose proof (fields_bp _ _ _ _ _ GO HM EP) as BP.
  pose proof (no_nl_ident' _ (go_mon g GO)) as NM. pose proof (no_nl_ident' _ UB) as NB. destruct (go_len g GO) as (_ & G2 & _).
  pose proof (no_nl_ident' _ (mo_name m (hk_msg _ HM))) as N1. pose proof (mo_name_len m (hk_msg _ HM)) as L1.
  match goal with |- bpart (_ ++ _ ++ ?x) /\ _ => assert (BS : bpart x); [|set (st := x) in *] end.
  { match goal with |- bpart (?a ++ ?b ++ ?c ++ ?d ++ ?e) =>
      replace (a ++ b ++ c ++ d ++ e)%list with
        ([nls 1; L "typedef struct"; L "{"] ++ (L ("#ifdef " ++ n_usebits g) :: (nls 1 :: fb) ++ L "#else" :: (nls 1 :: fp) ++ [L ("#endif // " ++ n_usebits g)])
          ++ [nls 1] ++ (L ("#ifdef " ++ n_usemon g) :: [nls 1; L "  FrameMonitor_t mon1;"; nls 1] ++ [L ("#endif // " ++ n_usemon g)])
          ++ [nls 1; L ("} " ++ g_name m ++ "_t;"); nls 1])%list end.
    2: { cbn [List.app]. rewrite <- !List.app_assoc. cbn [List.app]. do 5 f_equal. rewrite <- !List.app_assoc. reflexivity. }
    apply bpart_app; [apply bpart_cons; [apply bp_nls|apply bpart_cons; [lit|lit]]|].
    apply bpart_app.
    { apply bp_if_else; [raw|raw| |apply opens_ifdef; auto|reflexivity|apply endif_tail| |].
      - apply raw_intro; [reflexivity|cbn; lia].
      - apply bpart_cons; auto using bp_nls.
      - apply bpart_cons; auto using bp_nls. }
    apply bpart_app; [apply bp_nls|]. apply bpart_app.
    { apply bp_if; [raw|raw|apply opens_ifdef, GO|apply endif_tail|].
      apply bpart_cons; [apply bp_nls|apply bpart_cons; [lit|apply bp_nls]]. }
    apply bpart_cons; [apply bp_nls|]. apply bpart_cons; [|apply bp_nls]. apply bp_plain; [raw|reflexivity]. }
  split; [apply bpart_app; [auto|apply bpart_app; auto]|].
  split; [intros; apply top_l; [auto|apply bpart_app; auto]|].
  split; [intros _ sg p I IP; apply top_r; [apply top_l; auto|auto]|].
  split; [|split; auto].
  intros x X. destruct (M3 x X) as [Y|(sg' & c & p & A1 & A2 & A3 & A4 & A5 & A6)]; [now left|right].
  exists sg', c, p. repeat split; auto. apply top_r; [apply top_l; auto|auto].
Qed.

(** ** The top of the header *)

Record head_ok (g : gendesc) : Prop := {
  hd_src : src_ok g "";
  hd_bits : is_ident (n_usebits g) = true /\ (String.length (n_usebits g) <= 1100)%nat;
  hd_ver : is_ident (n_verhi g) = true /\ is_ident (n_verlow g) = true
}.

Lemma configure_head : forall drv out date dbc hi low nc ni nf,
  is_ident drv = true -> (String.length drv <= 900)%nat ->
  match date with Some t => no_nl t = true | None => True end -> no_nl dbc = true ->
  (0 <= hi < 2 ^ 32)%Z -> (0 <= low < 2 ^ 32)%Z ->
  head_ok (st_g (configure drv out (common_info date) (driver_info dbc) hi low nc ni nf)).
Proof.
  intros drv out date dbc hi low nc ni nf I LN D B H1 H2.
  pose proof (configure_ok drv out date dbc hi low nc ni nf I LN D B H1 H2) as SO. cbv zeta in SO.
  assert (LU : String.length (str_toupper drv) = String.length drv) by apply len_map.
  pose proof (upper_ident _ I) as IU.
  constructor.
  - destruct SO. constructor; auto. destruct so_len as (A1 & A2 & A3 & A4 & A5 & A6 & A7). repeat split; auto; cbn; lia.
  - unfold configure. cbn [st_g n_usebits]. rewrite !tmpb_short by (rewrite !app_len, ?LU; cbn [String.length]; lia).
    split; [now apply ident_prefix|]. rewrite !app_len, LU. cbn [String.length]. lia.
  - unfold configure. cbn [st_g n_verhi n_verlow]. rewrite !tmpb_short by (rewrite !app_len, ?LU; cbn [String.length]; lia).
    split; (apply (ident_prefix "VER_"); [reflexivity|]); rewrite all_chars_app, (ident_chars _ IU); reflexivity.
Qed.

Lemma info_bp : forall s, info_ok s -> bpart [s].
Proof.
  intros s [F C]. exists (lines s). split; [now apply part_full|]. apply bal_plains. now apply comments_plain.
Qed.
Lemma cpp_bp : bpart [L cpp_open] /\ bpart [L cpp_close].
Proof.
  split; (eexists; split; [apply part_full, L_full|]).
  - replace (lines (L cpp_open)) with ("#ifdef __cplusplus" :: [("extern " ++ dq ++ "C" ++ dq ++ " {")%string] ++ ["#endif"])%list by (vm_compute; reflexivity).
    apply bal_if; [left; reflexivity|reflexivity|]. apply bal_plains. repeat constructor.
  - replace (lines (L cpp_close)) with ("#ifdef __cplusplus" :: ["}"] ++ ["#endif"])%list by (vm_compute; reflexivity).
    apply bal_if; [left; reflexivity|reflexivity|]. apply bal_plains. repeat constructor.
Qed.

Definition ver_hi_s (g : gendesc) : string := n_verhi g ++ " (" ++ pu (n_hi g) ++ "U)".
Definition ver_low_s (g : gendesc) : string := n_verlow g ++ " (" ++ pu (n_low g) ++ "U)".
Definition max_s (g : gendesc) (mx : Z) : string := maxdlc_name g ++ " " ++ pu mx ++ "U".
Definition validate_s (g : gendesc) : string :=
  validate_name g ++ "(msgDlc) (((msgDlc) <= (" ++ maxdlc_name g ++ ")) ? (msgDlc) : (" ++ maxdlc_name g ++ "))".
Definition initial_s (g : gendesc) : string := initial_name g ++ " 0U".

Definition max_guard (g : gendesc) (mx : Z) : list string :=
  [L ("#ifndef " ++ maxdlc_name g); L "// The value which was found out by generator (real max value)";
   L ("#define " ++ max_s g mx); L "#endif"].
Definition ini_guard (g : gendesc) : list string :=
  [L ("#ifndef " ++ initial_name g); L ("#define " ++ initial_s g); L "#endif"].

Lemma head_top : forall g mx, head_ok g -> (0 <= mx < 2 ^ 32)%Z ->
  bpart (header_top g mx) /\
  at_top (header_top g mx) [L ("#define " ++ ver_hi_s g)] /\ at_top (header_top g mx) [L ("#define " ++ ver_low_s g)] /\
  at_top (header_top g mx) (max_guard g mx) /\ at_top (header_top g mx) [L ("#define " ++ validate_s g)] /\
  at_top (header_top g mx) (ini_guard g).
Proof.
  intros g mx [SO [UB LB] [VH VL]] MX. pose proof (so_gen _ _ SO) as GO.
  destruct (go_len g GO) as (G1 & G2 & G3 & G4 & G5 & G6). destruct (so_len _ _ SO) as (S1 & S2 & S3 & S4 & S5 & S6 & S7).
  pose proof (no_nl_ident' _ (go_DRV g GO)) as ND. pose proof (no_nl_ident _ (go_drv g GO)) as Nd.
  pose proof (no_nl_ident' _ (go_mon g GO)) as NM. pose proof (no_nl_ident' _ VH) as NH. pose proof (no_nl_ident' _ VL) as NL.
  pose proof (pu_len mx ltac:(lia)) as LM.
  assert (IDR : forall x, all_chars is_idchar x = true -> is_ident (n_DRV g ++ x) = true) by (intros; apply ident_prefix; auto; apply GO).
  assert (RE : raw_ok "#endif") by (apply raw_intro; [reflexivity|cbn; lia]).
  assert (P1 : bpart [n_cominfo g; n_drvinfo g; L "#pragma once"; nls 1; L cpp_open; nls 1; L "#include <stdint.h>"; nls 1; L "// DBC file version"]).
  { apply bpart_cons; [apply info_bp, SO|]. apply bpart_cons; [apply info_bp, SO|].
    apply bpart_cons; [apply bp_skip; [apply raw_intro; [reflexivity|cbn; lia]|exists "pragma", "once"; split; reflexivity]|].
    apply bpart_cons; [apply bp_nls|]. apply bpart_cons; [apply cpp_bp|]. apply bpart_cons; [apply bp_nls|].
    apply bpart_cons; [apply bp_skip; [apply raw_intro; [reflexivity|cbn; lia]|apply (skip_include "<stdint.h>")]|].
    apply bpart_cons; [apply bp_nls|lit]. }
  assert (P2 : bpart [L ("#define " ++ ver_hi_s g)]).
  { apply bp_def; unfold ver_hi_s; [raw|now apply ident_head]. }
  assert (P3 : bpart [L ("#define " ++ ver_low_s g)]).
  { apply bp_def; unfold ver_low_s; [raw|now apply ident_head]. }
  assert (P4 : bpart ([nls 1; L "// include current dbc-driver compilation config";
    L ("#include " ++ dq ++ n_drv g ++ "-config.h" ++ dq); nls 1] ++ (L ("#ifdef " ++ n_usemon g) ::
    [L ("// This file must define:" ++ nl ++ "// base monitor struct" ++ nl
        ++ "#include " ++ dq ++ "canmonitorutil.h" ++ dq ++ nl ++ nl)] ++ [L ("#endif // " ++ n_usemon g)]) ++ 
    [nls 2; L "// DLC maximum value which is used as the limit for frame's data buffer size.";
   L "// Client can set its own value (not sure why) in driver-config";
   L "// or can test it on some limit specified by application";
   L ("// e.g.: static_assert(TESTDB_MAX_DLC_VALUE <= APPLICATION_FRAME_DATA_SIZE, " ++ dq
        ++ "Max DLC value in the driver is too big" ++ dq ++ ")")])%list).
  { apply bpart_app; [|apply bpart_app].
    - apply bpart_cons; [apply bp_nls|]. apply bpart_cons; [lit|]. apply bpart_cons; [|apply bp_nls].
      apply bp_skip; [unfold dq; raw|apply skip_include].
    - apply bp_if; [raw|raw|apply opens_ifdef, GO|apply endif_tail|].
      eexists. split; [apply part_full, L_full|].
      match goal with |- bal ?t => let v := eval vm_compute in t in replace t with v by (vm_compute; reflexivity) end.
      repeat (apply bal_cons; [|try apply bal_nil]); try (apply bal_plain; exact Logic.I).
      apply bal_plain. cbn. intuition discriminate.
    - apply bpart_cons; [apply bp_nls|]. do 3 (apply bpart_cons; [lit|]). lit. }
  assert (P5 : bpart (max_guard g mx)).
  { apply (bp_if _ [_; _]); [unfold maxdlc_name; raw|exact RE|apply opens_ifndef; now apply IDR|reflexivity|].
    apply bpart_cons; [lit|]. apply bp_def; [unfold max_s, maxdlc_name; raw|unfold max_s; apply ident_head; now apply IDR]. }
  assert (P6 : bpart [nls 1; L "// The limit is used for setting frame's data bytes"]).
  { apply bpart_cons; [apply bp_nls|lit]. }
  assert (P7 : bpart [L ("#define " ++ validate_s g)]).
  { apply bp_def; unfold validate_s; [unfold validate_name, maxdlc_name; raw|apply ident_head; now apply IDR]. }
  assert (P8 : bpart [nls 1; L "// Initial byte value to be filles in data bytes of the frame before pack signals";
       L "// User can define its own custom value in driver-config file"]).
  { apply bpart_cons; [apply bp_nls|]. apply bpart_cons; lit. }
  assert (P9 : bpart (ini_guard g)).
  { apply (bp_if _ [_]); [unfold initial_name; raw|exact RE|apply opens_ifndef; now apply IDR|reflexivity|].
    apply bp_def; [unfold initial_s, initial_name; raw|unfold initial_s; apply ident_head; now apply IDR]. }
  pose proof (bp_nls 2) as P10.
  match type of P1 with bpart ?x => set (a1 := x) in * end.
  match type of P4 with bpart ?x => set (a4 := x) in * end.
  match type of P6 with bpart ?x => set (a6 := x) in * end.
  match type of P8 with bpart ?x => set (a8 := x) in * end.
  set (h1 := [L ("#define " ++ ver_hi_s g)]) in *. set (h2 := [L ("#define " ++ ver_low_s g)]) in *.
  set (h7 := [L ("#define " ++ validate_s g)]) in *.
  assert (EQ : header_top g mx = (a1 ++ (h1 ++ (h2 ++ (a4 ++ (max_guard g mx ++ (a6 ++ (h7 ++ (a8 ++ (ini_guard g ++ [nls 2])))))))))%list) by reflexivity.
  rewrite EQ.
  assert (T10 : bpart (ini_guard g ++ [nls 2])) by now apply bpart_app.
  assert (T8 : bpart (a8 ++ (ini_guard g ++ [nls 2]))) by now apply bpart_app.
  assert (T7 : bpart (h7 ++ (a8 ++ (ini_guard g ++ [nls 2])))) by now apply bpart_app.
  assert (T6 : bpart (a6 ++ (h7 ++ (a8 ++ (ini_guard g ++ [nls 2]))))) by now apply bpart_app.
  assert (T5 : bpart (max_guard g mx ++ (a6 ++ (h7 ++ (a8 ++ (ini_guard g ++ [nls 2])))))) by now apply bpart_app.
  assert (T4 : bpart (a4 ++ (max_guard g mx ++ (a6 ++ (h7 ++ (a8 ++ (ini_guard g ++ [nls 2]))))))) by now apply bpart_app.
  assert (T3 : bpart (h2 ++ (a4 ++ (max_guard g mx ++ (a6 ++ (h7 ++ (a8 ++ (ini_guard g ++ [nls 2])))))))) by now apply bpart_app.
  assert (T2 : bpart (h1 ++ (h2 ++ (a4 ++ (max_guard g mx ++ (a6 ++ (h7 ++ (a8 ++ (ini_guard g ++ [nls 2]))))))))) by now apply bpart_app.
  split; [now apply bpart_app|].
  split; [apply top_r; auto; apply top_l; auto using top_self|].
  split; [do 2 (apply top_r; auto); apply top_l; auto using top_self|].
  split; [do 4 (apply top_r; auto); apply top_l; auto using top_self|].
  split; [do 6 (apply top_r; auto); apply top_l; auto using top_self|].
  do 8 (apply top_r; auto). apply top_l; auto using top_self.
Qed.

(** ** The whole header *)

Lemma protos_bp : forall g m, src_ok g "" -> msg_ok m -> bpart (msg_prototypes g m).
Proof.
  intros g m SO MO. unfold msg_prototypes. destruct (negb (g_notempty m)); [apply bpart_nil|].
  destruct (so_len _ _ SO) as (S1 & S2 & _). pose proof (no_nl_ident' _ (so_struct _ _ SO)) as NS.
  pose proof (no_nl_ident _ (so_orig _ _ SO)) as NO.
  pose proof (no_nl_ident' _ (mo_name m MO)) as N1. pose proof (mo_name_len m MO) as L1.
  match goal with |- bpart [?a; ?b; ?c; ?d; ?e; ?f; ?g] => change [a; b; c; d; e; f; g] with ([a] ++ (b :: [c] ++ d :: [e] ++ [f]) ++ [g])%list end.
  apply bpart_app; [apply bp_plain; [raw|reflexivity]|]. apply bpart_app; [|apply bp_nls].
  apply bp_if_else; [raw|raw|apply raw_intro; [reflexivity|cbn; lia]|apply opens_ifdef, SO|reflexivity|apply endif_tail| |];
    (apply bp_plain; [raw|reflexivity]).
Qed.

(** what the header of a run contains *)
Record contains (g : gendesc) (mx : Z) (ms : list message) (ps : list string) : Prop := {
  cn_hi : at_top ps [L ("#define " ++ ver_hi_s g)];
  cn_low : at_top ps [L ("#define " ++ ver_low_s g)];
  cn_max : at_top ps (max_guard g mx);
  cn_validate : at_top ps [L ("#define " ++ validate_s g)];
  cn_ini : at_top ps (ini_guard g);
  cn_const : forall m k v, In m ms -> In (k, v) (consts m) -> at_top ps [L (const_line m k v)];
  cn_table : forall m sg p, In m ms -> g_notempty m = true -> In sg (g_sigs m) -> In p (s_valdefs sg) -> at_top ps (table_pieces m sg p);
  cn_conv : forall m sg, In m ms -> g_notempty m = true -> In sg (g_sigs m) -> s_simple sg = false ->
              exists m', In m' ms /\ has_conv (n_DRV g) ps (s_name sg) (g_sigs m')
}.

Lemma has_conv_r : forall D a b x l, has_conv D a x l -> bpart b -> has_conv D (b ++ a) x l.
Proof. intros D a b x l (sg & c & p & A1 & A2 & A3 & A4 & A5 & A6) B. exists sg, c, p. repeat split; auto. now apply top_r. Qed.
Lemma has_conv_l : forall D a b x l, has_conv D a x l -> bpart b -> has_conv D (a ++ b) x l.
Proof. intros D a b x l (sg & c & p & A1 & A2 & A3 & A4 & A5 & A6) B. exists sg, c, p. repeat split; auto. now apply top_l. Qed.

Lemma msg_headers_top : forall g xs passed t, head_ok g -> (forall x, In x xs -> hmsg_ok (x_msg x)) ->
  msg_headers g passed xs = Ok t ->
  bpart t /\
  (forall x k v, In x xs -> In (k, v) (consts (x_msg x)) -> at_top t [L (const_line (x_msg x) k v)]) /\
  (forall x sg p, In x xs -> g_notempty (x_msg x) = true -> In sg (g_sigs (x_msg x)) -> In p (s_valdefs sg) -> at_top t (table_pieces (x_msg x) sg p)) /\
  (forall x sg, In x xs -> g_notempty (x_msg x) = true -> In sg (g_sigs (x_msg x)) -> s_simple sg = false ->
     In (s_name sg) passed \/ exists x', In x' xs /\ has_conv (n_DRV g) t (s_name sg) (g_sigs (x_msg x'))).
Proof.
  intros g. induction xs as [|x r IH]; intros passed t HD OK E.
  - injection E as <-. split; [apply bpart_nil|]. split; [intros x k v []|]. split; [intros x sg p []|intros x sg []].
  - cbn [msg_headers] in E. destruct (msg_header g passed (x_msg x)) as [[p1 t1]| |] eqn:EH; cbn [bind] in E; try discriminate.
    destruct (msg_headers g p1 r) as [ts| |] eqn:ER; cbn [bind] in E; try discriminate. apply Ok_inj in E. subst t.
    destruct (msg_header_top g (x_msg x) passed p1 t1 (hd_src _ HD) (proj1 (hd_bits _ HD)) (proj2 (hd_bits _ HD)) (OK x (or_introl eq_refl)) EH)
      as (H1 & H2 & H3 & H4 & H5 & H6).
    destruct (IH p1 ts HD (fun y I => OK y (or_intror I)) ER) as (I1 & I2 & I3 & I4).
    split; [now apply bpart_app|]. split; [|split].
    + intros y k v [<-|I] X; [apply top_l|apply top_r]; auto.
    + intros y sg p [<-|I] N S X; [apply top_l|apply top_r]; auto.
    + assert (F : forall nm, In nm p1 -> In nm passed \/ exists x', In x' (x :: r) /\ has_conv (n_DRV g) (t1 ++ ts) nm (g_sigs (x_msg x'))).
      { intros nm A. destruct (H4 nm A) as [B|B]; [now left|right]. exists x. split; [now left|]. apply has_conv_l; auto. }
      intros y sg [<-|I] N S X.
      * apply F. apply H6; auto.
      * destruct (I4 y sg I N S X) as [A|(x' & A1 & A2)]; [now apply F|right].
        exists x'. split; [now right|]. apply has_conv_r; auto.
Qed.

Lemma header_contains : forall g mx xs ps, head_ok g -> (0 <= mx < 2 ^ 32)%Z -> (forall x, In x xs -> hmsg_ok (x_msg x)) ->
  main_header g mx xs = Ok ps -> contains g mx (map x_msg xs) ps.
Proof.
  intros g mx xs ps HD MX OK E. unfold main_header in E.
  destruct (msg_headers g [] xs) as [t| |] eqn:EH; cbn [bind] in E; try discriminate. apply Ok_inj in E. subst ps.
  destruct (head_top g mx HD MX) as (T0 & T1 & T2 & T3 & T4 & T5).
  destruct (msg_headers_top g xs [] t HD OK EH) as (M1 & M2 & M3 & M4).
  assert (B : bpart ([L "// Function signatures"; nls 1] ++ List.concat (map (fun x => msg_prototypes g (x_msg x)) xs) ++ [L cpp_close])).
  { apply bpart_app; [apply bpart_cons; [lit|apply bp_nls]|]. apply bpart_app; [|apply cpp_bp].
    apply bpart_concat. apply Forall_map. apply Forall_forall. intros x I. apply protos_bp; [apply HD|apply OK; auto]. }
  assert (BT : bpart (t ++ ([L "// Function signatures"; nls 1] ++ List.concat (map (fun x => msg_prototypes g (x_msg x)) xs) ++ [L cpp_close])))
    by now apply bpart_app.
  set (R := ([L "// Function signatures"; nls 1] ++ _)%list) in *.
  constructor; try (apply top_l; auto).
  - intros m k v I X. apply in_map_iff in I. destruct I as (x & <- & I). apply top_r; auto. apply top_l; auto.
  - intros m sg p I N S X. apply in_map_iff in I. destruct I as (x & <- & I). apply top_r; auto. apply top_l; auto.
  - intros m sg I N S X. apply in_map_iff in I. destruct I as (x & <- & I).
    destruct (M4 x sg I N S X) as [[]|(x' & A1 & A2)]. exists (x_msg x'). split; [now apply in_map|].
    apply has_conv_r; auto. apply has_conv_l; auto.
Qed.
