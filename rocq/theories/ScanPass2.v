(** The second pass over a file: comments, value tables, attributes. *)

From Coq Require Import ZArith NArith List String Ascii Bool Lia ZifyBool Permutation.
From Verif Require Import Base Dbl CSyntax Types Formatter MainGen LineParser Scanner LexLemmas CliProof ScanSpec ScanLemmas ScanLines ScanPass1.
Import ListNotations.
Open Scope string_scope.

(** ** Edits *)

Definition edit : Type := Z * (message -> message).
Definition apply_edits (es : list edit) (ms : list message) : list message :=
  fold_left (fun ms e => update_message ms (fst e) (snd e)) es ms.

Definition comment_edits (r : option (Z * target * string)) : list edit :=
  match r with
  | Some (id, TgMessage, t) => [(id, fun m => with_comment m t)]
  | Some (id, TgSignal n, t) => [(id, comment_signals n t)]
  | _ => []
  end.
Definition val_edits (r : option (Z * string * string * list (string * Z))) : list edit :=
  match r with Some (id, n, t, vals) => [(id, value_signals n t vals)] | None => [] end.
Definition attr_edits (r : option (Z * Z)) : list edit :=
  match r with Some (id, v) => [(id, fun m => with_cycle m (uwrap 32 v))] | None => [] end.

Definition pending : Type := string * string * string.
Definition line_edits (p : pending) (raw : string) : pending * list edit :=
  let '(pc, pv, pa) := p in
  let l := str_trim raw in
  let '(pc', rc) := parse_comment_line pc l in
  let '(pv', rv) := parse_val_line pv l in
  let '(pa', ra) := parse_attribute_line pa l in
  ((pc', pv', pa'), comment_edits rc ++ val_edits rv ++ attr_edits ra)%list.

Fixpoint edits (p : pending) (ls : list string) : list edit :=
  match ls with
  | [] => []
  | l :: r => let '(p', es) := line_edits p l in (es ++ edits p' r)%list
  end.
Fixpoint leaves (p : pending) (ls : list string) : pending :=
  match ls with
  | [] => p
  | l :: r => leaves (fst (line_edits p l)) r
  end.

Lemma edits_app : forall a b p, edits p (a ++ b) = (edits p a ++ edits (leaves p a) b)%list.
Proof.
  induction a as [|l a IH]; intros b p; auto. cbn [edits leaves List.app].
  destruct (line_edits p l) as [p' es]. cbn [fst]. now rewrite IH, List.app_assoc.
Qed.
Lemma leaves_app : forall a b p, leaves p (a ++ b) = leaves (leaves p a) b.
Proof. induction a as [|l a IH]; intros b p; auto. cbn [leaves List.app]. apply IH. Qed.
Lemma apply_app : forall a b ms, apply_edits (a ++ b) ms = apply_edits b (apply_edits a ms).
Proof. intros. unfold apply_edits. apply fold_left_app. Qed.

Lemma other_edits : forall ls st,
  q_msgs (fold_left other_line ls st) = apply_edits (edits (q_comment st, q_val st, q_attr st) ls) (q_msgs st).
Proof.
  induction ls as [|l ls IH]; intros st; auto. cbn [fold_left]. rewrite IH. clear IH. cbn [edits].
  unfold line_edits, other_line. destruct (parse_comment_line (q_comment st) (str_trim l)) as [pc rc].
  destruct (parse_val_line (q_val st) (str_trim l)) as [pv rv]. destruct (parse_attribute_line (q_attr st) (str_trim l)) as [pa ra].
  cbn [q_comment q_val q_attr q_msgs]. rewrite !apply_app. f_equal.
  destruct ra as [[ia va]|], rv as [[[[iv nv] tv] vv]|], rc as [[[ic [|n|]] tc]|]; reflexivity.
Qed.

Definition idle : pending := ("", "", "").
Theorem other_info_edits : forall ms ls, parse_other_info ms ls = apply_edits (edits idle ls) ms.
Proof. intros. unfold parse_other_info. apply (other_edits ls {| q_msgs := ms; q_comment := ""; q_val := ""; q_attr := "" |}). Qed.

(** ** Edits change comments, value tables and attributes only *)

Lemma same_signal_refl : forall s, same_signal s s.
Proof. intros s. unfold same_signal. repeat split. Qed.
Lemma same_signal_trans : forall a b c, same_signal a b -> same_signal b c -> same_signal a c.
Proof. unfold same_signal. intuition congruence. Qed.
Lemma same_refl : forall m, same_message m m.
Proof. intros m. constructor; auto. apply forall2_refl, same_signal_refl. Qed.
Lemma same_trans : forall a b c, same_message a b -> same_message b c -> same_message a c.
Proof.
  intros a b c [] []. constructor; try congruence. eapply forall2_trans; eauto using same_signal_trans.
Qed.

Definition keeps (f : message -> message) : Prop := forall m, same_message (f m) m.

Lemma keeps_loop : forall name text todo i m, same_message (comment_loop name text i todo m) m.
Proof.
  induction todo as [|s r IH]; intros i m; cbn [comment_loop]; [apply same_refl|].
  eapply same_trans; [apply IH|]. destruct (_ || _); [|apply same_refl].
  assert (X : forall ro cs me op, same_message (with_marks m (update_nth i (fun s => sig_comment s text) (g_sigs m)) ro cs me op) m).
  { intros. constructor; auto. cbn [g_sigs with_marks]. apply forall2_update; [apply same_signal_refl|]. intros x. unfold same_signal. repeat split. }
  destruct (csm_marker text) as [[me op]|]; [destruct (_ && _)|]; apply X.
Qed.
Lemma edits_keep : forall p l e, In e (snd (line_edits p l)) -> keeps (snd e).
Proof.
  intros [[pc pv] pa] l e H. unfold line_edits in H.
  destruct (parse_comment_line pc (str_trim l)) as [pc' rc]. destruct (parse_val_line pv (str_trim l)) as [pv' rv].
  destruct (parse_attribute_line pa (str_trim l)) as [pa' ra]. cbn [snd] in H. rewrite !in_app_iff in H.
  destruct H as [H|[H|H]].
  - destruct rc as [[[id [|n|]] t]|]; cbn in H; try contradiction; destruct H as [<-|[]]; cbn [snd]; intros m.
    + constructor; auto. apply forall2_refl, same_signal_refl.
    + apply keeps_loop.
  - destruct rv as [[[[id n] t] v]|]; cbn in H; try contradiction. destruct H as [<-|[]]. cbn [snd]. intros m.
    constructor; auto. cbn. induction (g_sigs m) as [|s r IHr]; cbn [map]; constructor; auto.
    destruct (String.eqb n (s_name s)); [|apply same_signal_refl]. unfold same_signal. repeat split.
  - destruct ra as [[id v]|]; cbn in H; try contradiction. destruct H as [<-|[]]. cbn [snd]. intros m.
    constructor; auto. apply forall2_refl, same_signal_refl.
Qed.
Lemma all_edits_keep : forall ls p e, In e (edits p ls) -> keeps (snd e).
Proof.
  induction ls as [|l ls IH]; intros p e H; [contradiction|]. cbn [edits] in H.
  pose proof (edits_keep p l) as K. destruct (line_edits p l) as [p' es]. apply in_app_iff in H. destruct H; eauto.
Qed.
Lemma apply_keep : forall es ms, (forall e, In e es -> keeps (snd e)) -> Forall2 same_message (apply_edits es ms) ms.
Proof.
  induction es as [|e es IH]; intros ms H; [apply forall2_refl, same_refl|]. cbn [apply_edits fold_left].
  eapply forall2_trans; [apply same_trans|apply IH; intros; apply H; now right|].
  unfold update_message. destruct (find_message ms (fst e)); [apply forall2_update|apply forall2_refl]; auto using same_refl.
  apply H. now left.
Qed.
Theorem other_same : forall ms ls, Forall2 same_message (parse_other_info ms ls) ms.
Proof. intros. rewrite other_info_edits. apply apply_keep. intros e H. eapply all_edits_keep; eauto. Qed.

(** ** Edits with known identifiers *)

Definition edits_for (es : list edit) (id : Z) : list (message -> message) :=
  flat_map (fun e => if (fst e =? id)%Z then [snd e] else []) es.
Definition edited (es : list edit) (m : message) : message := fold_left (fun m f => f m) (edits_for es (g_id m)) m.

Theorem apply_known : forall es ms, (forall e, In e es -> forall m, g_id (snd e m) = g_id m) ->
  NoDup (map g_id ms) -> (forall e, In e es -> In (fst e) (map g_id ms)) ->
  apply_edits es ms = map (edited es) ms.
Proof.
  induction es as [|e es IH]; intros ms K N H.
  - symmetry. apply map_id.
  - cbn [apply_edits fold_left]. rewrite update_known by (auto; apply H; now left).
    assert (G : forall m, g_id (if (g_id m =? fst e)%Z then snd e m else m) = g_id m)
      by (intros m; destruct (_ =? _)%Z; [apply K; now left|reflexivity]).
    fold (apply_edits es (map (fun m => if (g_id m =? fst e)%Z then snd e m else m) ms)). rewrite IH.
    + rewrite map_map. apply map_ext. intros m. unfold edited. rewrite G. unfold edits_for. cbn [flat_map].
      rewrite (Z.eqb_sym (fst e)). destruct (g_id m =? fst e)%Z; reflexivity.
    + intros; apply K; now right.
    + now rewrite (map_ids _ _ G).
    + rewrite (map_ids _ _ G). intros; apply H; now right.
Qed.

(** ** Parsers that have nothing to do *)

Lemma comment_idle : forall l, String.prefix "CM_" l = false -> parse_comment_line "" l = ("", None).
Proof.
  intros l H. unfold parse_comment_line. destruct (String.eqb l ""); auto.
  unfold collect, starts_with. rewrite H. reflexivity.
Qed.
Lemma val_idle : forall l, String.prefix "VAL_ " l = false -> parse_val_line "" l = ("", None).
Proof.
  intros l H. unfold parse_val_line. destruct (String.eqb l ""); auto.
  unfold collect, starts_with. rewrite H. reflexivity.
Qed.
Lemma attr_idle : forall l, String.prefix "BA_ " l = false -> parse_attribute_line "" l = ("", None).
Proof.
  intros l H. unfold parse_attribute_line. destruct (String.eqb l ""); auto.
  unfold collect, starts_with. rewrite H. reflexivity.
Qed.

Lemma prefix_trim : forall p s, p <> "" -> String.prefix p (str_trim s) = true -> String.prefix p s = true \/ String.prefix p nl = true.
Proof.
  intros p s P H. destruct s as [|c r]; [now right|left]. cbn [str_trim] in H.
  assert (X : forall s, exists t, s = rtrim_chars s ++ t).
  { induction s as [|a s [t E]]; [now exists ""|]. cbn [rtrim_chars]. destruct (rtrim_chars s) as [|b u] eqn:R.
    - destruct (_ <? _)%Z; [exists s|exists (String a s)]; reflexivity.
    - exists t. cbn. f_equal. exact E. }
  destruct (X (String c r)) as [t E]. rewrite E. clear X E. revert H. generalize (rtrim_chars (String c r)).
  clear. induction p as [|a p IH]; intros s H; cbn [String.prefix] in *; [now destruct (s ++ t)|].
  destruct s as [|b s]; [discriminate|]. cbn [String.append String.prefix] in *. destruct (ascii_dec a b); auto.
Qed.

Definition line_idle (l : string) : Prop := line_edits idle l = (idle, []).
Lemma other_idle : forall l, opens_entry l = false -> line_idle l.
Proof.
  intros l H. unfold opens_entry in H. apply orb_false_iff in H as [H H3]. apply orb_false_iff in H as [H1 H2].
  assert (T : forall p, p <> "" -> String.prefix p nl = false -> String.prefix p l = false -> String.prefix p (str_trim l) = false).
  { intros p P Q R. destruct (String.prefix p (str_trim l)) eqn:E; auto. apply prefix_trim in E; auto. destruct E; congruence. }
  unfold line_idle, line_edits, idle.
  rewrite comment_idle by (apply T; auto; intros ?; discriminate). rewrite val_idle by (apply T; auto; intros ?; discriminate).
  rewrite attr_idle by (apply T; auto; intros ?; discriminate). reflexivity.
Qed.

(** ** Cycle times *)

Lemma number_Z : forall n, number n -> (Z.of_N n < 2 ^ 63)%Z.
Proof. unfold number. intros n H. change (2 ^ 63)%Z with (Z.of_N (2 ^ 63)). now apply N2Z.inj_lt. Qed.

Lemma cycle_edits : forall id n, number id -> number n ->
  line_edits idle (cycle_line id n) = (idle, [(Z.of_N (plain_id id), fun m => with_cycle m (uwrap 32 (swrap 32 (Z.of_N n))))]).
Proof.
  intros id n I N. unfold line_edits, idle. rewrite trim_solid.
  - rewrite comment_idle, val_idle by reflexivity. rewrite parse_cycle by auto using number_Z. reflexivity.
  - unfold solid_end. rewrite cycle_last. reflexivity.
Qed.

(** ** Value tables *)

Lemma prefix_self : forall p s, String.prefix p (p ++ s) = true.
Proof.
  induction p as [|a p IH]; intros s; [now destruct s|]. rewrite app_cons. cbn [String.prefix].
  destruct (ascii_dec a a); [apply IH|congruence].
Qed.

Lemma span_shorter : forall p s a r, span p s = (a, r) -> (String.length r <= String.length s)%nat.
Proof.
  intros p s a r H. apply span_prefix in H. subst. rewrite app_len. lia.
Qed.
Lemma span_head : forall p c s a r, p c = true -> span p (String c s) = (a, r) -> (String.length r <= String.length s)%nat.
Proof.
  intros p c s a r P H. cbn [span] in H. rewrite P in H. destruct (span p s) as [a' r'] eqn:E. injection H as <- <-.
  eapply span_shorter; eauto.
Qed.
Lemma quote_shorter : forall s a r, to_quote s = Some (a, r) -> (String.length r <= String.length s)%nat.
Proof.
  induction s as [|c s IH]; intros a r H; [discriminate|]. cbn [to_quote] in H. destruct (Ascii.eqb c DQ).
  - injection H as <- <-. cbn; lia.
  - destruct (to_quote s) as [[a' r']|] eqn:E; [|discriminate]. injection H as <- <-. specialize (IH _ _ eq_refl). cbn; lia.
Qed.
Lemma items_fuel : forall n f g s, (String.length s < n)%nat -> (String.length s < f)%nat -> (String.length s < g)%nat ->
  val_items_from f s = val_items_from g s.
Proof.
  induction n as [|n IH]; intros f g s L F G; [lia|]. destruct f as [|f]; [lia|]. destruct g as [|g]; [lia|].
  cbn [val_items_from]. destruct s as [|c r]; auto. cbn [String.length] in *.
  destruct (is_space c) eqn:S; [apply IH; lia|]. destruct (Ascii.eqb c DQ) eqn:Q.
  - destruct (to_quote r) as [[a b]|] eqn:E; [|apply IH; lia]. apply quote_shorter in E. f_equal. apply IH; lia.
  - destruct (span _ (String c r)) as [w rest] eqn:E. apply span_head in E; [|now rewrite S, Q]. f_equal. apply IH; lia.
Qed.
Lemma items_space : forall r, val_items (" " ++ r) = val_items r.
Proof. intros r. unfold val_items. cbn [append val_items_from]. change (is_space " ") with true. reflexivity. Qed.
Definition word_char (c : ascii) : bool := negb (is_space c || Ascii.eqb c DQ).
Lemma items_word : forall w r, w <> "" -> all_chars word_char w = true -> val_items (w ++ " " ++ r) = w :: val_items r.
Proof.
  intros w r W A. rewrite <- (items_space r). unfold val_items at 1. destruct w as [|c w]; [congruence|].
  cbn [val_items_from]. rewrite app_cons. cbn [val_items_from].
  pose proof A as A0. cbn [all_chars] in A0. apply andb_true_iff in A0. destruct A0 as [C _]. unfold word_char in C.
  apply negb_true_iff in C. apply orb_false_iff in C as [C1 C2]. rewrite C1, C2. rewrite <- app_cons.
  change (" " ++ r) with (String " " r). fold word_char. rewrite span_all by auto. f_equal. unfold val_items.
  eapply items_fuel with (n := S (String.length (String " " r))); [lia| |lia]. rewrite app_len. cbn [String.length]. lia.
Qed.
Lemma items_last : forall w, w <> "" -> all_chars word_char w = true -> val_items w = [w].
Proof.
  intros w W A. assert (E : val_items (w ++ " " ++ "") = [w]) by now rewrite items_word. rewrite <- E. clear E W.
  assert (X : forall f g w, (String.length w < f)%nat -> (S (String.length w) < g)%nat -> all_chars word_char w = true ->
     val_items_from f w = val_items_from g (w ++ " ")).
  { clear. intros f g w F G A. destruct f as [|f]; [lia|]. destruct g as [|g]; [lia|].
    cbn [val_items_from]. destruct w as [|c w].
    - destruct g; reflexivity.
    - rewrite app_cons. pose proof A as A0. cbn [all_chars] in A0. apply andb_true_iff in A0. destruct A0 as [C A1].
      unfold word_char in C. apply negb_true_iff in C. apply orb_false_iff in C as [C1 C2]. rewrite C1, C2, <- app_cons.
      fold word_char. change (" ") with (String " " ""). rewrite (span_all word_char (String c w)) by auto.
      assert (S : span word_char (String c w) = (String c w, "")).
      { clear - A. induction (String c w) as [|a s IH]; auto. cbn [span all_chars] in *. apply andb_true_iff in A.
        destruct A as [A B]. now rewrite A, IH. }
      rewrite S. f_equal. cbn [String.length] in *. destruct f as [|f]; [lia|]. destruct g as [|[|g]]; [lia|lia|]. reflexivity. }
  apply X; auto. rewrite app_len. cbn. lia.
Qed.
Lemma to_quote_app : forall a r, no_quote a = true -> to_quote (a ++ dq ++ r) = Some (a, r).
Proof.
  induction a as [|c a IH]; intros r H; auto. unfold no_quote in H. cbn [all_chars] in H. apply andb_true_iff in H.
  destruct H as [C H]. apply negb_true_iff in C. rewrite app_cons. cbn [to_quote]. rewrite C, IH; auto.
Qed.
Lemma items_quoted : forall a r, no_quote a = true -> val_items (dq ++ a ++ dq ++ r) = (dq ++ a ++ dq) :: val_items r.
Proof.
  intros a r H. unfold val_items at 1. change (dq ++ a ++ dq ++ r) with (String DQ (a ++ dq ++ r)).
  cbn [val_items_from]. change (is_space DQ) with false. rewrite Ascii.eqb_refl, to_quote_app by auto. f_equal.
  unfold val_items. eapply items_fuel with (n := S (String.length r)); [lia| |lia]. cbn [String.length]. rewrite !app_len. cbn. lia.
Qed.

Definition printed_pairs (v : list (Z * string)) : list (string * string) := map (fun p => (decZ (fst p), dq ++ snd p ++ dq)) v.
Definition text_no_quote : forall s, all_chars text_char s = true -> no_quote s = true.
Proof. intros s. apply all_chars_impl. intros c H. unfold text_char in H. now apply andb_true_iff in H. Qed.

Lemma decZ_word : forall z, decZ z <> "" /\ all_chars word_char (decZ z) = true.
Proof.
  assert (D : forall n, all_chars word_char (dec n) = true).
  { intros n. apply (all_chars_impl _ _ _ (ascii_impl is_digit word_char eq_refl)), dec_digits. }
  intros z. unfold decZ. destruct (z <? 0)%Z.
  - split; [discriminate|]. rewrite all_chars_app, D. reflexivity.
  - split; [apply dec_nonempty|apply D].
Qed.
Lemma node_word : forall s, node_name s -> s <> "" /\ all_chars word_char s = true.
Proof.
  intros s [N A]. split; auto. revert A. apply all_chars_impl. apply (ascii_impl node_char word_char). reflexivity.
Qed.

Definition pair_items (v : list (Z * string)) : list string := flat_map (fun p => [decZ (fst p); dq ++ snd p ++ dq]) v.
Lemma items_pairs : forall v, (forall p, In p v -> no_quote (snd p) = true) ->
  val_items (sconcat (map (fun p => decZ (fst p) ++ " " ++ dq ++ snd p ++ dq ++ " ") v) ++ ";")
  = (pair_items v ++ [";"])%list.
Proof.
  induction v as [|[z d] v IH]; intros H; [reflexivity|]. unfold pair_items; cbn [map sconcat flat_map fst snd]; fold (pair_items v). rewrite !app_assoc.
  destruct (decZ_word z) as [Z1 Z2]. rewrite items_word by auto. rewrite items_quoted by (apply (H (z, d)); now left).
  rewrite items_space, IH by (intros; apply H; now right). reflexivity.
Qed.
Lemma items_val : forall id s v, node_name s -> (forall p, In p v -> no_quote (snd p) = true) ->
  val_items (val_line id s v) = ("VAL_" :: dec id :: s :: pair_items v ++ [";"])%list.
Proof.
  intros id s v S H. unfold val_line. change ("VAL_ ") with ("VAL_" ++ " "). rewrite app_assoc.
  rewrite items_word by (discriminate || reflexivity). destruct (node_word _ S) as [S1 S2].
  rewrite items_word; [|apply dec_nonempty|apply (all_chars_impl _ _ _ (ascii_impl is_digit word_char eq_refl)), dec_digits].
  rewrite items_word by auto. now rewrite items_pairs.
Qed.

Lemma pairs_flat : forall v, val_pairs (pair_items v) = printed_pairs v.
Proof. induction v as [|p v IH]; auto. unfold pair_items in *. cbn [flat_map List.app val_pairs]. now rewrite IH. Qed.
Lemma flat_len : forall v, List.length (pair_items v) = (2 * List.length v)%nat.
Proof. induction v as [|p v IH]; auto. unfold pair_items in *. cbn [flat_map List.app List.length]. rewrite IH. lia. Qed.

Lemma name_tail_quote : forall s ret, make_c_name_from ret (s ++ dq) = make_c_name_from ret s.
Proof.
  induction s as [|c s IH]; intros ret.
  - change ("" ++ dq) with (String DQ ""). cbn [make_c_name_from]. change (is_first_valid DQ) with false.
    change (is_nonfirst_valid DQ) with false. rewrite !andb_false_r. reflexivity.
  - rewrite app_cons. cbn [make_c_name_from]. rewrite !IH. reflexivity.
Qed.
Lemma name_quoted : forall s, make_c_name (dq ++ s ++ dq) = make_c_name s.
Proof. intros s. unfold make_c_name. change (dq ++ s ++ dq) with (String DQ (s ++ dq)). cbn [make_c_name_from]. apply name_tail_quote. Qed.

Lemma atoll_decZ : forall z, (- 2 ^ 63 <= z < 2 ^ 63)%Z -> atoll (decZ z) = z.
Proof.
  intros z H. unfold decZ, atoll. destruct (z <? 0)%Z eqn:E.
  - rewrite <- (app_nil_r (dec _)). rewrite strtoll_neg by exact Logic.I. lia.
  - rewrite <- (app_nil_r (dec _)). rewrite strtoll_dec by exact Logic.I. lia.
Qed.

(** text of a value table as kept for the struct comment *)
Definition val_text (v : list (Z * string)) : string :=
  let t := sconcat (map (fun p => " " ++ decZ (fst p) ++ " : " ++ dq ++ snd p ++ dq ++ nl) v) in
  substring 0 (String.length t - 1) t.
Definition val_defs (v : list (Z * string)) : list (string * Z) :=
  map (fun p => (make_c_name (snd p), (fst p mod 2 ^ 32)%Z)) v.

Lemma val_last : forall id s v, last_char (val_line id s v) = Some ";"%char.
Proof.
  intros. unfold val_line.
  assert (X : forall a b c d e f, a ++ b ++ c ++ d ++ e ++ f ++ ";" = (a ++ b ++ c ++ d ++ e ++ f) ++ ";") by (intros; now rewrite !app_assoc).
  rewrite X. apply ends_semi.
Qed.

Theorem parse_vals : forall acc id s v, number id -> node_name s ->
  (forall p, In p v -> (- 2 ^ 63 <= fst p < 2 ^ 63)%Z /\ all_chars text_char (snd p) = true) ->
  parse_val_line acc (val_line id s v) = ("", Some (Z.of_N (plain_id id), s, val_text v, val_defs v)).
Proof.
  intros acc id s v I NS V. unfold parse_val_line.
  replace (String.eqb (val_line id s v) "") with false by reflexivity.
  replace (collect "VAL_ " "" acc (val_line id s v)) with (val_line id s v) by (unfold collect, starts_with, val_line; now rewrite prefix_self).
  unfold ends_entry. rewrite val_last. replace (String.eqb (val_line id s v) "") with false by reflexivity.
  rewrite Ascii.eqb_refl. cbn [negb andb]. cbv zeta.
  rewrite items_val by (auto; intros; apply text_no_quote, V; auto).
  set (F := pair_items v).
  assert (L : List.length (F ++ [";"]) = S (2 * List.length v)) by (rewrite app_length; unfold F; rewrite flat_len; cbn; lia).
  cbn [List.length nth skipn]. rewrite L.
  replace (last ("VAL_" :: dec id :: s :: (F ++ [";"])%list) "") with ";" by (change ("VAL_" :: dec id :: s :: (F ++ [";"])%list) with (("VAL_" :: dec id :: s :: F) ++ [";"])%list; now rewrite last_last).
  change (";" =? ";")%string with true. rewrite (proj2 (Nat.leb_le _ _)) by lia.
  replace (Nat.even (S (S (S (S (2 * List.length v)))))) with true by (symmetry; apply Nat.even_spec; exists (2 + List.length v)%nat; lia).
  cbn [andb]. replace (S (S (S (S (2 * List.length v)))) - 4)%nat with (List.length F) by (unfold F; rewrite flat_len; lia).
  rewrite firstn_app, firstn_all, Nat.sub_diag. cbn [firstn]. rewrite List.app_nil_r. unfold F. rewrite pairs_flat.
  rewrite atoll_dec, plain_wrap by auto using number_Z. unfold printed_pairs. rewrite !map_map.
  assert (T : map (fun x : Z * string => " " ++ fst (decZ (fst x), dq ++ snd x ++ dq) ++ " : " ++ snd (decZ (fst x), dq ++ snd x ++ dq) ++ nl) v
    = map (fun p => " " ++ decZ (fst p) ++ " : " ++ dq ++ snd p ++ dq ++ nl) v).
  { apply map_ext. intros p. cbn [fst snd]. now rewrite !app_assoc. }
  rewrite T. unfold val_text, val_defs. cbv zeta. f_equal. f_equal. f_equal.
  apply map_ext_in. intros p P. cbn [fst snd]. rewrite name_quoted, atoll_decZ by (apply V; auto). reflexivity.
Qed.

Lemma val_edit : forall id s v, number id -> node_name s ->
  (forall p, In p v -> (- 2 ^ 63 <= fst p < 2 ^ 63)%Z /\ all_chars text_char (snd p) = true) ->
  line_edits idle (val_line id s v) = (idle, [(Z.of_N (plain_id id), value_signals s (val_text v) (val_defs v))]).
Proof.
  intros id s v I S V. unfold line_edits, idle. rewrite trim_solid by (unfold solid_end; rewrite val_last; reflexivity).
  rewrite comment_idle, attr_idle by reflexivity. rewrite parse_vals by auto. reflexivity.
Qed.

(** ** Comments *)

Definition comment_meta (id : N) (sig : option string) : string :=
  match sig with None => "CM_ BO_ " ++ dec id ++ " " | Some s => "CM_ SG_ " ++ dec id ++ " " ++ s ++ " " end.
Lemma head_meta : forall id sig, comment_head id sig = comment_meta id sig ++ dq.
Proof. intros id [s|]; unfold comment_head, comment_meta; now rewrite !app_assoc. Qed.

Lemma word_no_space : forall c, node_char c = true -> space_delim c = false.
Proof. apply (ascii_excl node_char space_delim). reflexivity. Qed.
Lemma digit_no_space : forall c, is_digit c = true -> space_delim c = false.
Proof. apply (ascii_excl is_digit space_delim). reflexivity. Qed.
Lemma word_no_quote : forall c, node_char c = true -> is_quote c = false.
Proof. apply (ascii_excl node_char is_quote). reflexivity. Qed.
Lemma digit_no_quote : forall c, is_digit c = true -> is_quote c = false.
Proof. apply (ascii_excl is_digit is_quote). reflexivity. Qed.

Definition sig_ok (sig : option string) : Prop := forall x, sig = Some x -> node_name x.
Definition meta_items (id : N) (sig : option string) : list string :=
  match sig with None => ["CM_"; "BO_"; dec id] | Some s => ["CM_"; "SG_"; dec id; s] end.

Lemma split_meta : forall id sig, sig_ok sig -> split_runs space_delim (comment_meta id sig) = meta_items id sig.
Proof.
  intros id sig S. assert (D : not_in space_delim (dec id)) by (apply (not_in_of _ _ _ (dec_digits id) digit_no_space)).
  unfold split_runs, comment_meta, meta_items. destruct sig as [s|].
  - destruct (S s eq_refl) as [S1 S2]. assert (T : not_in space_delim s) by (apply (not_in_of _ _ _ S2 word_no_space)).
    change ("CM_ SG_ " ++ dec id ++ " " ++ s ++ " ") with ("CM_" ++ String " " ("SG_" ++ String " " (dec id ++ String " " (s ++ String " " "")))).
    rewrite runs_tok; [|reflexivity|reflexivity|now left]. rewrite runs_tok; [|reflexivity|reflexivity|right; discriminate].
    rewrite runs_tok; [|assumption|reflexivity|right; apply dec_nonempty]. rewrite runs_tok; [|assumption|reflexivity|now right].
    reflexivity.
  - change ("CM_ BO_ " ++ dec id ++ " ") with ("CM_" ++ String " " ("BO_" ++ String " " (dec id ++ String " " ""))).
    rewrite runs_tok; [|reflexivity|reflexivity|now left]. rewrite runs_tok; [|reflexivity|reflexivity|right; discriminate].
    rewrite runs_tok; [|assumption|reflexivity|right; apply dec_nonempty]. reflexivity.
Qed.
Lemma meta_no_quote : forall id sig, sig_ok sig -> not_in is_quote (comment_meta id sig).
Proof.
  intros id sig S. assert (D : not_in is_quote (dec id)) by (apply (not_in_of _ _ _ (dec_digits id) digit_no_quote)).
  unfold comment_meta. destruct sig as [s|].
  - destruct (S s eq_refl) as [S1 S2]. repeat apply not_in_app; try reflexivity; auto. apply (not_in_of _ _ _ S2 word_no_quote).
  - repeat apply not_in_app; try reflexivity; auto.
Qed.

Definition target_of (sig : option string) : target := match sig with None => TgMessage | Some s => TgSignal s end.
Definition whole (id : N) (sig : option string) (t : string) : string := comment_head id sig ++ t ++ dq ++ ";".

Lemma whole_split : forall id sig t, sig_ok sig -> no_quote t = true ->
  split_each is_quote (whole id sig t) = [comment_meta id sig; t; ";"].
Proof.
  intros id sig t S T. unfold split_each, whole. rewrite head_meta, app_assoc.
  change (dq ++ t ++ dq ++ ";") with (String DQ (t ++ String DQ ";")).
  rewrite each_tok; [|now apply meta_no_quote|reflexivity]. rewrite each_tok; [|exact T|reflexivity].
  rewrite each_end0; [|reflexivity|discriminate]. reflexivity.
Qed.

Lemma pop_id : forall t, last_char t <> Some NL -> pop_nl t = t.
Proof.
  intros t H. unfold pop_nl. destruct (last_char t) as [c|]; auto. destruct (Ascii.eqb c NL) eqn:E; auto.
  apply Ascii.eqb_eq in E. congruence.
Qed.

(** what follows once the text is complete *)
Definition comment_result (w : string) : option (Z * target * string) :=
  let items := split_each is_quote w in
  if (List.length items =? 3)%nat then
    let meta := split_runs space_delim (nth 0 items "") in
    if (3 <=? List.length meta)%nat then
      let id := clear_msgid (uwrap 32 (atoll (nth 2 meta ""))) in
      let tg := if String.eqb (nth 1 meta "") "SG_" && (List.length meta =? 4)%nat
                then TgSignal (nth 3 meta "")
                else if String.eqb (nth 1 meta "") "BO_" then TgMessage else TgNone in
      Some (id, tg, pop_nl (nth 1 items ""))
    else Some (0%Z, TgNone, "")
  else None.
Lemma whole_result : forall id sig t, number id -> sig_ok sig -> no_quote t = true -> last_char t <> Some NL ->
  comment_result (whole id sig t) = Some (Z.of_N (plain_id id), target_of sig, t).
Proof.
  intros id sig t I S T N. unfold comment_result. rewrite whole_split by auto. cbv zeta. cbn [List.length nth].
  change (3 =? 3)%nat with true. cbv iota. rewrite split_meta by auto. rewrite pop_id by auto.
  destruct sig as [s|]; cbn [meta_items List.length nth target_of].
  - cbn [Nat.leb]. rewrite atoll_dec, plain_wrap by auto using number_Z. reflexivity.
  - cbn [Nat.leb]. rewrite atoll_dec, plain_wrap by auto using number_Z. reflexivity.
Qed.

Lemma comment_step : forall acc l, l <> "" ->
  parse_comment_line acc l =
    (let acc' := collect "CM_" nl acc l in if ends_entry acc' l then ("", comment_result acc') else (acc', None)).
Proof. intros acc l H. unfold parse_comment_line, comment_result. apply String.eqb_neq in H. rewrite H. reflexivity. Qed.

Lemma head_collect : forall id sig acc t, collect "CM_" nl acc (comment_head id sig ++ t) = comment_head id sig ++ t.
Proof. intros id sig acc t. unfold collect, starts_with. destruct sig; reflexivity. Qed.
Lemma more_collect : forall acc t, acc <> "" -> String.prefix "CM_" t = false -> collect "CM_" nl acc t = acc ++ nl ++ t.
Proof.
  intros acc t A P. unfold collect, starts_with. rewrite P. apply String.eqb_neq in A. now rewrite A.
Qed.
Lemma app_ne : forall a b, a <> "" -> a ++ b <> "".
Proof. intros [|c a] b H; [congruence|discriminate]. Qed.
Lemma head_ne : forall id sig t, comment_head id sig ++ t <> "".
Proof. intros id [s|] t; discriminate. Qed.
Lemma ends_char : forall acc s c, acc <> "" -> ends_entry acc (s ++ String c "") = Ascii.eqb c ";".
Proof.
  intros acc s c A. unfold ends_entry. apply String.eqb_neq in A. rewrite A. rewrite last_char_app by discriminate. reflexivity.
Qed.

Lemma opens_parts : forall l, opens_entry l = false ->
  String.prefix "CM_" l = false /\ String.prefix "VAL_ " l = false /\ String.prefix "BA_ " l = false.
Proof. intros l H. unfold opens_entry in H. apply orb_false_iff in H as [H H3]. now apply orb_false_iff in H as [H1 H2]. Qed.

(** no keyword contains a quote, so what follows the first quote does not matter *)
Lemma prefix_quote : forall p u r, no_quote p = true -> p <> "" -> String.prefix p (u ++ dq) = String.prefix p (u ++ dq ++ r).
Proof.
  induction p as [|a p IH]; intros u r N P; [congruence|]. unfold no_quote in N. cbn [all_chars] in N.
  apply andb_true_iff in N. destruct N as [A N]. apply negb_true_iff in A. destruct u as [|c u].
  - change ("" ++ dq) with (String DQ ""). change ("" ++ dq ++ r) with (String DQ r). cbn [String.prefix].
    destruct (ascii_dec a DQ) as [->|]; [now rewrite Ascii.eqb_refl in A|reflexivity].
  - rewrite !app_cons. cbn [String.prefix]. destruct (ascii_dec a c); auto. destruct p as [|b p]; [|now apply IH].
    now destruct (u ++ dq), (u ++ dq ++ r).
Qed.
Lemma prefix_front : forall p u r, p <> "" -> String.prefix p (u ++ r) = false -> String.prefix p u = false.
Proof.
  intros p u r P H. destruct (String.prefix p u) eqn:E; auto. rewrite <- H. symmetry. clear H P. revert u E.
  induction p as [|a p IH]; intros u E; [now destruct (u ++ r)|]. destruct u as [|c u]; [discriminate|].
  rewrite app_cons. cbn [String.prefix] in *. destruct (ascii_dec a c); auto.
Qed.

Lemma idle_others : forall l, String.prefix "VAL_ " l = false -> String.prefix "BA_ " l = false ->
  forall acc pc rc, l <> "" -> str_trim l = l -> parse_comment_line acc l = (pc, rc) ->
  line_edits (acc, "", "") l = ((pc, "", ""), comment_edits rc).
Proof.
  intros l V B acc pc rc L T H. unfold line_edits. rewrite T, H, val_idle, attr_idle by auto.
  cbn [val_edits attr_edits]. now rewrite !List.app_nil_r.
Qed.

Lemma inner_ends : forall acc s, inner_line s -> ends_entry acc s = false.
Proof.
  intros acc s [_ H]. unfold ends_entry, ends_semicolon in *. rewrite H. apply andb_false_r.
Qed.
Lemma solid_semi : forall s, solid_end (s ++ ";") = true.
Proof. intros s. unfold solid_end. rewrite ends_semi. reflexivity. Qed.

(** the remaining lines of a comment *)
Lemma tail_edits : forall r acc t id sig, number id -> sig_ok sig ->
  (forall u, In u (t :: r) -> opens_entry (u ++ dq) = false) ->
  (forall u, In u (removelast (t :: r)) -> inner_line u) ->
  no_quote (acc ++ nl ++ joined t r) = true -> last_char (acc ++ nl ++ joined t r) <> Some NL ->
  edits (comment_head id sig ++ acc, "", "") (comment_tail t r)
    = comment_edits (Some (Z.of_N (plain_id id), target_of sig, acc ++ nl ++ joined t r))
  /\ leaves (comment_head id sig ++ acc, "", "") (comment_tail t r) = idle.
Proof.
  induction r as [|u r IH]; intros acc t id sig I S O N Q L.
  - cbn [comment_tail joined edits leaves] in *. destruct (opens_parts _ (O t (or_introl eq_refl))) as (O1 & O2 & O3).
    rewrite (prefix_quote _ _ ";") in O1 by (reflexivity || discriminate). rewrite (prefix_quote _ _ ";") in O2 by (reflexivity || discriminate).
    rewrite (prefix_quote _ _ ";") in O3 by (reflexivity || discriminate).
    assert (E : (t ++ dq ++ ";") = (t ++ dq) ++ ";") by now rewrite app_assoc.
    assert (P : parse_comment_line (comment_head id sig ++ acc) (t ++ dq ++ ";")
      = ("", Some (Z.of_N (plain_id id), target_of sig, acc ++ nl ++ t))).
    { rewrite comment_step by (destruct t; discriminate). cbv zeta. rewrite more_collect by (auto using head_ne).
      rewrite E, ends_char by (rewrite app_assoc; apply head_ne). change (Ascii.eqb ";" ";") with true. cbv iota. f_equal.
      rewrite <- whole_result by auto. unfold whole. now rewrite !app_assoc. }
    rewrite (idle_others _ O2 O3 _ _ _ ltac:(destruct t; discriminate) ltac:(rewrite E; apply trim_solid, solid_semi) P).
    cbn [fst]. split; [apply List.app_nil_r|reflexivity].
  - cbn [comment_tail edits leaves].
    change (removelast (t :: u :: r)) with (t :: removelast (u :: r)) in N.
    assert (Nt : inner_line t) by (apply N; now left). destruct (opens_parts _ (O t (or_introl eq_refl))) as (O1 & O2 & O3).
    apply prefix_front in O1; [|discriminate]. apply prefix_front in O2; [|discriminate]. apply prefix_front in O3; [|discriminate].
    pose proof (solid_nonempty _ (proj1 Nt)) as T0.
    assert (P : parse_comment_line (comment_head id sig ++ acc) t = (comment_head id sig ++ (acc ++ nl ++ t), None)).
    { rewrite comment_step by auto. cbv zeta. rewrite more_collect by auto using head_ne. rewrite inner_ends by auto.
      now rewrite !app_assoc. }
    rewrite (idle_others _ O2 O3 _ _ _ T0 (trim_solid _ (proj1 Nt)) P). cbn [fst comment_edits List.app].
    cbn [joined] in *. assert (A : acc ++ nl ++ t ++ nl ++ joined u r = (acc ++ nl ++ t) ++ nl ++ joined u r) by now rewrite !app_assoc.
    rewrite A in *. apply IH; auto.
    + intros v V. apply O. now right.
    + intros v V. apply N. now right.
Qed.

Lemma joined_all : forall p t r, p NL = true -> (forall u, In u (t :: r) -> all_chars p u = true) -> all_chars p (joined t r) = true.
Proof.
  intros p t r N. revert t. induction r as [|u r IH]; intros t H; cbn [joined]; [apply H; now left|].
  rewrite !all_chars_app. rewrite (H t) by now left. rewrite IH by (intros; apply H; now right). unfold nl. cbn [all_chars]. now rewrite N.
Qed.
Lemma joined_last : forall t r, r = [] \/ last r "" <> "" -> (forall u, In u (t :: r) -> all_chars text_char u = true) -> last_char (joined t r) <> Some NL.
Proof.
  assert (X : forall s, all_chars text_char s = true -> last_char s <> Some NL).
  { induction s as [|c s IH]; intros H E; [discriminate|]. cbn [all_chars] in H. apply andb_true_iff in H. destruct H as [C H].
    destruct s as [|d s].
    - cbn in E. injection E as ->. discriminate C.
    - apply (IH H). exact E. }
  intros t r. revert t. induction r as [|u r IH]; intros t H A; cbn [joined].
  - apply X, A. now left.
  - destruct H as [H|H]; [discriminate|].
    assert (K : r = [] \/ last r "" <> "") by (destruct r; [now left|now right]).
    assert (B : forall v, In v (u :: r) -> all_chars text_char v = true) by (intros; apply A; now right).
    assert (J : joined u r <> "").
    { destruct r as [|w r]; cbn [joined]; [exact H|]. intros E. destruct u; discriminate E. }
    rewrite last_char_app by (intros E; discriminate E). rewrite last_char_app by auto. now apply IH.
Qed.

Lemma comment_edit : forall id sig t r, entry_ok (EComment id sig t r) ->
  edits idle (comment_lines_of id sig t r) = comment_edits (Some (Z.of_N (plain_id id), target_of sig, joined t r))
  /\ leaves idle (comment_lines_of id sig t r) = idle.
Proof.
  intros id sig t r (I & S & T & O & K).
  assert (Q : no_quote (joined t r) = true) by (apply joined_all; [reflexivity|]; intros u U; apply text_no_quote; auto).
  assert (L : last_char (joined t r) <> Some NL) by (apply joined_last; auto; destruct K as [->|(_ & _ & K)]; auto).
  unfold comment_lines_of. destruct r as [|u r]; cbn [comment_tail edits leaves].
  - cbn [joined] in *. assert (E : (comment_head id sig ++ t ++ dq ++ ";") = (comment_head id sig ++ t ++ dq) ++ ";") by now rewrite !app_assoc.
    assert (P : parse_comment_line "" (comment_head id sig ++ t ++ dq ++ ";") = ("", Some (Z.of_N (plain_id id), target_of sig, t))).
    { rewrite comment_step by apply head_ne. cbv zeta. rewrite head_collect. rewrite E at 1 2.
      rewrite ends_char by (rewrite app_assoc; apply head_ne). change (Ascii.eqb ";" ";") with true. cbv iota.
      f_equal. now apply whole_result. }
    unfold idle. erewrite idle_others; [|destruct sig; reflexivity|destruct sig; reflexivity|apply head_ne|rewrite E; apply trim_solid, solid_semi|exact P].
    cbn [fst]. split; [apply List.app_nil_r|reflexivity].
  - destruct K as [K|(K1 & K2 & K3)]; [discriminate|].
    assert (P : parse_comment_line "" (comment_head id sig ++ t) = (comment_head id sig ++ t, None)).
    { rewrite comment_step by apply head_ne. cbv zeta. rewrite head_collect. destruct K1 as [->|K1].
      - rewrite app_nil_r, head_meta. unfold dq at 2. rewrite ends_char; [reflexivity|]. destruct sig; discriminate.
      - unfold ends_entry. rewrite last_char_app by (apply solid_nonempty, K1).
        destruct K1 as [_ K1]. unfold ends_semicolon in K1. rewrite K1, andb_false_r. reflexivity. }
    assert (Tr : str_trim (comment_head id sig ++ t) = comment_head id sig ++ t).
    { apply trim_solid. destruct K1 as [->|K1].
      - rewrite app_nil_r, head_meta. unfold solid_end. rewrite last_char_app by discriminate. reflexivity.
      - rewrite solid_app by (apply solid_nonempty, K1). apply K1. }
    unfold idle. erewrite idle_others; [|destruct sig; reflexivity|destruct sig; reflexivity|apply head_ne|exact Tr|exact P].
    cbn [fst comment_edits List.app joined] in *. apply tail_edits; auto.
Qed.
