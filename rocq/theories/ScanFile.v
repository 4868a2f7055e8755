(** What the second pass makes of a whole file. *)

From Coq Require Import ZArith NArith List String Ascii Bool Lia ZifyBool Permutation.
From Verif Require Import Base Dbl CSyntax Types Formatter MainGen LineParser Scanner LexLemmas CliProof ScanSpec ScanLemmas ScanLines ScanPass1 ScanPass2.
Import ListNotations.
Open Scope string_scope.

Definition effect (e : entry) (m : message) : message :=
  match e with
  | ECycle _ n => with_cycle m (Z.of_N n mod 2 ^ 32)
  | EVals _ s v => value_signals s (val_text v) (val_defs v) m
  | EComment _ None t r => with_comment m (joined t r)
  | EComment _ (Some s) t r => comment_signals s (joined t r) m
  | EOther _ => m
  end.
Definition effects (es : list entry) (m : message) : message := fold_left (fun m e => effect e m) es m.

Definition entry_edits (e : entry) : list edit :=
  match entry_id e with Some n => [(Z.of_N n, effect e)] | None => [] end.

(** equal as functions *)
Definition edit_eq (a b : edit) : Prop := fst a = fst b /\ forall m, snd a m = snd b m.

Lemma entry_printed : forall e, entry_ok e ->
  Forall2 edit_eq (edits idle (entry_lines e)) (entry_edits e) /\ leaves idle (entry_lines e) = idle.
Proof.
  intros [id n|id s v|id sig t r|l] H; cbn [entry_lines edits leaves].
  - destruct H as [I N]. rewrite cycle_edits by auto. cbn [fst]. split; auto. rewrite List.app_nil_r. constructor; [|constructor].
    split; [reflexivity|]. intros m. cbn [snd effect]. rewrite uwrap_swrap by lia. reflexivity.
  - destruct H as (I & N & V). rewrite val_edit by auto. cbn [fst]. split; auto. rewrite List.app_nil_r.
    constructor; [|constructor]. split; reflexivity.
  - destruct (comment_edit _ _ _ _ H) as [E L]. rewrite E, L. split; auto.
    destruct sig; cbn [target_of comment_edits entry_edits entry_id]; (constructor; [|constructor]); split; reflexivity.
  - cbn in H. rewrite (other_idle _ H). cbn [fst]. split; auto. constructor.
Qed.

Lemma file_edits : forall es, (forall e, In e es -> entry_ok e) ->
  Forall2 edit_eq (edits idle (file_lines es)) (flat_map entry_edits es) /\ leaves idle (file_lines es) = idle.
Proof.
  unfold file_lines. induction es as [|e es IH]; intros H; [split; [constructor|reflexivity]|].
  cbn [flat_map]. rewrite edits_app, leaves_app. destruct (entry_printed e (H _ (or_introl eq_refl))) as [E L].
  rewrite L. destruct IH as [E' L']; [intros; apply H; now right|]. split; auto. now apply Forall2_app.
Qed.

Lemma update_ext : forall ms id f g, (forall m, f m = g m) -> update_message ms id f = update_message ms id g.
Proof.
  intros ms id f g H. unfold update_message. destruct (find_message ms id) as [n|]; auto. revert n.
  induction ms as [|m ms IH]; intros [|n]; cbn [update_nth]; auto; now rewrite ?H, ?IH.
Qed.
Lemma apply_ext : forall a b ms, Forall2 edit_eq a b -> apply_edits a ms = apply_edits b ms.
Proof.
  intros a b ms H. revert ms. induction H as [|x y a b [E F] _ IH]; intros ms; auto. cbn [apply_edits fold_left].
  rewrite E, (update_ext _ _ _ _ F). apply IH.
Qed.

Lemma effect_same : forall e m, same_message (effect e m) m.
Proof.
  intros [id n|id s v|id [s|] t r|l] m; cbn [effect].
  - constructor; auto. apply forall2_refl, same_signal_refl.
  - constructor; auto. cbn. induction (g_sigs m) as [|x l IHl]; cbn [map]; constructor; auto.
    destruct (String.eqb s (s_name x)); [|apply same_signal_refl]. unfold same_signal. repeat split.
  - apply keeps_loop.
  - constructor; auto. apply forall2_refl, same_signal_refl.
  - apply same_refl.
Qed.

Lemma entry_edits_for : forall es i, edits_for (flat_map entry_edits es) i = map effect (filter (names i) es).
Proof.
  induction es as [|e es IH]; intros i; auto. cbn [flat_map filter]. unfold edits_for in *. rewrite flat_map_app, IH.
  replace (names i e) with (match entry_id e with Some n => (Z.of_N n =? i)%Z | None => false end) by reflexivity.
  unfold entry_edits. destruct (entry_id e) as [n|]; [|reflexivity]. cbn [flat_map fst snd].
  destruct (_ =? _)%Z; reflexivity.
Qed.
Lemma fold_map : forall A B C (f : B -> C) (g : A -> C -> A) l a, fold_left g (map f l) a = fold_left (fun a b => g a (f b)) l a.
Proof. induction l as [|x l IH]; intros a; auto. cbn. apply IH. Qed.

Definition known (es : list entry) (ms : list message) : Prop :=
  forall e n, In e es -> entry_id e = Some n -> In (Z.of_N n) (map g_id ms).

Theorem file_effects : forall ms es, (forall e, In e es -> entry_ok e) -> NoDup (map g_id ms) -> known es ms ->
  parse_other_info ms (file_lines es) = map (fun m => effects (filter (names (g_id m)) es) m) ms.
Proof.
  intros ms es O N K. rewrite other_info_edits. destruct (file_edits es O) as [E _]. rewrite (apply_ext _ _ _ E).
  rewrite apply_known; auto.
  - apply map_ext. intros m. unfold edited, effects. rewrite entry_edits_for, fold_map. reflexivity.
  - intros e H m. apply in_flat_map in H as (x & _ & H). unfold entry_edits in H. destruct (entry_id x); [|contradiction].
    destruct H as [<-|[]]. cbn [snd]. apply effect_same.
  - intros e H. apply in_flat_map in H as (x & X & H). unfold entry_edits in H. destruct (entry_id x) eqn:Y; [|contradiction].
    destruct H as [<-|[]]. cbn [fst]. eapply K; eauto.
Qed.

(** ** The last entry of a kind decides *)

Lemma effects_last : forall (P Q : message -> Prop) es i e m, (forall m, Q m -> P (effect e m)) ->
  (forall x m, In x es -> names i x = true -> P m -> P (effect x m)) -> Q m ->
  P (effects (filter (names i) es) (effect e m)).
Proof.
  intros P Q es i e m A B H. assert (X : P (effect e m)) by auto. clear A H. revert X. generalize (effect e m). clear m.
  induction es as [|x es IH]; intros m X; auto. cbn [filter]. destruct (names i x) eqn:E.
  - cbn [effects fold_left]. apply IH; [intros; apply B; auto; now right|]. apply B; auto. now left.
  - apply IH; auto. intros; apply B; auto. now right.
Qed.
Lemma effects_app : forall a b m, effects (a ++ b) m = effects b (effects a m).
Proof. intros. apply fold_left_app. Qed.

(** signals after a comment on one of them *)
Definition commented (name text : string) (s : signal) : signal :=
  if String.eqb name (s_name s) || String.eqb (name ++ "_ro") (s_name s) then sig_comment s text else s.

Lemma update_middle : forall A (f : A -> A) pre x r, update_nth (List.length pre) f (pre ++ x :: r) = (pre ++ f x :: r)%list.
Proof. induction pre as [|y pre IH]; intros x r; auto. cbn [List.length List.app update_nth]. now rewrite IH. Qed.

Lemma loop_sigs : forall name text todo pre m, g_sigs m = (pre ++ todo)%list ->
  g_sigs (comment_loop name text (List.length pre) todo m) = (pre ++ map (commented name text) todo)%list.
Proof.
  induction todo as [|s r IH]; intros pre m H; cbn [comment_loop map]; [now rewrite H|].
  set (m' := if _ || _ then _ else m).
  assert (E : g_sigs m' = (pre ++ commented name text s :: r)%list).
  { unfold m', commented. destruct (_ || _); auto. rewrite H, update_middle.
    destruct (csm_marker text) as [[me op]|]; [destruct (_ && _)|]; reflexivity. }
  clearbody m'. replace (S (List.length pre)) with (List.length (pre ++ [commented name text s])) by (rewrite app_length; cbn; lia).
  rewrite IH by (rewrite E, <- List.app_assoc; reflexivity). rewrite <- List.app_assoc. reflexivity.
Qed.
Lemma comment_sigs : forall name text m, g_sigs (comment_signals name text m) = map (commented name text) (g_sigs m).
Proof. intros. apply (loop_sigs name text (g_sigs m) [] m eq_refl). Qed.
Lemma loop_other : forall name text todo i m,
  g_comment (comment_loop name text i todo m) = g_comment m /\ g_cycle (comment_loop name text i todo m) = g_cycle m.
Proof.
  induction todo as [|s r IH]; intros i m; cbn [comment_loop]; auto.
  match goal with |- context [comment_loop name text (S i) r ?x] => set (m' := x) end.
  destruct (IH (S i) m') as [A B]. rewrite A, B. unfold m'.
  destruct (_ || _); auto. destruct (csm_marker text) as [[me op]|]; [destruct (_ && _)|]; auto.
Qed.

(** ** Markers *)

Definition matches (name : string) (s : signal) : bool := String.eqb name (s_name s) || String.eqb (name ++ "_ro") (s_name s).
Definition takes_sum (s : signal) : bool := s_simple s && boundary_ok s && negb (s_signed s).

Lemma loop_untouched : forall name text todo i m, forallb (fun s => negb (matches name s)) todo = true ->
  comment_loop name text i todo m = m.
Proof.
  induction todo as [|s r IH]; intros i m H; auto. cbn [forallb comment_loop] in *. apply andb_true_iff in H. destruct H as [A B].
  apply negb_true_iff in A. unfold matches in A. rewrite A. now apply IH.
Qed.
Lemma loop_app : forall name text a b i m,
  comment_loop name text i (a ++ b) m = comment_loop name text (i + List.length a) b (comment_loop name text i a m).
Proof.
  induction a as [|s a IH]; intros b i m; cbn [List.app List.length comment_loop]; [now rewrite Nat.add_0_r|].
  rewrite IH. f_equal. lia.
Qed.
Theorem sum_found : forall name text a s b meth op m, g_sigs m = (a ++ s :: b)%list -> matches name s = true ->
  forallb (fun s => negb (matches name s)) b = true -> csm_marker text = Some (meth, op) -> takes_sum s = true ->
  g_csm (comment_signals name text m) = Some (List.length a)
  /\ g_csmmethod (comment_signals name text m) = meth
  /\ g_csmop (comment_signals name text m) = uwrap 32 (atoi op).
Proof.
  intros name text a s b meth op m E M B C T. unfold comment_signals. rewrite E, loop_app. cbn [comment_loop Nat.add].
  rewrite loop_untouched by auto. unfold matches in M. rewrite M, C. unfold takes_sum in T. rewrite T. cbn. auto.
Qed.
Theorem roll_found : forall name text a s b m, g_sigs m = (a ++ s :: b)%list -> matches name s = true ->
  forallb (fun s => negb (matches name s)) b = true -> has_sub "<RollingCounter>" text = true ->
  g_roll (comment_signals name text m) = Some (List.length a).
Proof.
  intros name text a s b m E M B R. unfold comment_signals. rewrite E, loop_app. cbn [comment_loop Nat.add].
  rewrite loop_untouched by auto. unfold matches in M. rewrite M, R. destruct (csm_marker text) as [[me op]|]; [destruct (_ && _)|]; reflexivity.
Qed.
