(** Markers in comments: checksum and rolling counter. *)

From Coq Require Import ZArith NArith List String Ascii Bool Lia ZifyBool.
From Verif Require Import Base Dbl CSyntax Types Formatter MainGen LineParser Scanner LexLemmas CliProof CodecSpec DriverSpec ScanSpec ScanLemmas ScanLines ScanPass1 ScanPass2 ScanFile ScanThms.
Import ListNotations.
Open Scope string_scope.

Lemma index_char : forall c a r, not_in (Ascii.eqb c) a -> index 0 (String c "") (a ++ String c r) = Some (String.length a).
Proof.
  intros c. induction a as [|x a IH]; intros r N.
  - cbn [append index String.prefix]. destruct (ascii_dec c c) as [_|N']; [destruct r; reflexivity|congruence].
  - unfold not_in in N. cbn [all_chars] in N. apply andb_true_iff in N as [A N]. apply negb_true_iff in A.
    rewrite app_cons. cbn [index String.prefix String.length]. destruct (ascii_dec c x) as [->|_]; [now rewrite Ascii.eqb_refl in A|].
    now rewrite IH.
Qed.
Lemma index_skip : forall p a b, index (String.length a) p (a ++ b) = option_map (fun k => (String.length a + k)%nat) (index 0 p b).
Proof.
  intros p. induction a as [|x a IH]; intros b; cbn [String.length append].
  - destruct (index 0 p b); reflexivity.
  - cbn [index]. rewrite IH. destruct (index 0 p b); reflexivity.
Qed.
Lemma sub_skip : forall a n b, substring (String.length a) n (a ++ b) = substring 0 n b.
Proof. induction a as [|x a IH]; intros n b; [reflexivity|]. rewrite app_cons. cbn [String.length substring]. apply IH. Qed.
Lemma sub_more : forall a n b, substring 0 (String.length a + n) (a ++ b) = a ++ substring 0 n b.
Proof. induction a as [|x a IH]; intros n b; [reflexivity|]. rewrite app_cons. cbn [String.length Nat.add substring]. rewrite IH. reflexivity. Qed.

Definition marker (meth : string) (n : N) : string := "<Checksum:" ++ meth ++ ":" ++ dec n ++ ">".

Lemma dec_not_in : forall p n, (forall c, is_digit c = true -> p c = false) -> not_in p (dec n).
Proof. intros p n H. apply (not_in_of p is_digit); [apply dec_digits|exact H]. Qed.

Theorem marker_found : forall pre meth n post, not_in (Ascii.eqb "<") pre -> not_in (fun c => Ascii.eqb ":" c || Ascii.eqb ">" c) meth ->
  not_in (Ascii.eqb ":") (substring 0 (String.length pre - 1) post) ->
  exists x, csm_marker (pre ++ marker meth n ++ post) = Some (meth, dec n ++ x) /\ (x = "" \/ exists y, x = String ">" y).
Proof.
  intros pre meth n post P M Q. set (body := "Checksum:" ++ meth ++ ":" ++ dec n).
  assert (E : pre ++ marker meth n ++ post = pre ++ String "<" (body ++ String ">" post)).
  { unfold marker, body. rewrite !app_assoc. reflexivity. }
  rewrite E. unfold csm_marker. rewrite index_char by exact P.
  assert (B1 : not_in (Ascii.eqb ">") body).
  { unfold body. apply not_in_app; [reflexivity|]. apply not_in_app.
    - unfold not_in in *. eapply all_chars_impl; [|exact M]. intros c H. apply negb_true_iff in H. apply orb_false_iff in H as [_ H]. now rewrite H.
    - apply not_in_app; [reflexivity|]. apply dec_not_in. apply ascii_excl. reflexivity. }
  rewrite index_skip. change (String "<" (body ++ String ">" post)) with (String "<" body ++ String ">" post).
  rewrite index_char by exact B1. cbn [option_map String.length].
  assert (L0 : (9 <= String.length body)%nat) by (unfold body; rewrite app_len; cbn; lia).
  replace (String.length pre + 1 <? String.length pre + S (String.length body))%nat with true by (symmetry; apply Nat.ltb_lt; lia).
  replace (pre ++ String "<" body ++ String ">" post) with ((pre ++ "<") ++ (body ++ String ">" post)) by (rewrite !app_assoc; reflexivity).
  replace (String.length pre + 1)%nat with (String.length (pre ++ "<")) by (rewrite app_len; reflexivity).
  rewrite sub_skip. replace (String.length pre + S (String.length body) - 1)%nat with (String.length body + String.length pre)%nat by lia.
  rewrite sub_more. set (x := substring 0 (String.length pre) (String ">" post)).
  assert (X : x = "" /\ pre = "" \/ x = String ">" (substring 0 (String.length pre - 1) post)).
  { unfold x. destruct pre as [|c pre]; [left; auto|right]. cbn [String.length substring]. now rewrite Nat.sub_succ, Nat.sub_0_r. }
  assert (NX : not_in (Ascii.eqb ":") (dec n ++ x)).
  { apply not_in_app; [apply dec_not_in, ascii_excl; reflexivity|]. destruct X as [[-> _]| ->]; [reflexivity|].
    unfold not_in in *. cbn [all_chars]. now rewrite Q. }
  exists x. split; [|destruct X as [[-> _]| ->]; eauto].
  unfold body, split_each. replace (("Checksum:" ++ meth ++ ":" ++ dec n) ++ x) with ("Checksum" ++ String ":" (meth ++ String ":" (dec n ++ x)))
    by (rewrite !app_assoc; reflexivity).
  rewrite each_tok by reflexivity. rewrite each_tok; [|unfold not_in in *; eapply all_chars_impl; [|exact M]; intros c H; apply negb_true_iff in H; apply orb_false_iff in H as [H _]; now rewrite H|reflexivity].
  rewrite each_end0; [reflexivity|exact NX|]. pose proof (dec_nonempty n) as D. destruct (dec n); [congruence|discriminate].
Qed.

(** all bits in one byte *)
Definition one_byte (s : signal) : Prop :=
  exists b, forall k, (0 <= k < s_len s)%Z -> (sig_pos (s_order s) (s_start s) (s_len s) k / 8 = b)%Z.

Ltac Zify.zify_post_hook ::= Z.to_euclidean_division_equations.
Lemma boundary_one : forall s, (0 <= s_start s < 2 ^ 32)%Z -> (0 < s_len s <= 64)%Z -> one_byte s -> boundary_ok s = true.
Proof.
  intros s S0 L [b H]. unfold boundary_ok. cbv zeta. pose proof (H 0%Z ltac:(lia)) as H0. pose proof (H (s_len s - 1)%Z ltac:(lia)) as H1.
  unfold sig_pos, mirror, uwrap in *. destruct (s_order s).
  - rewrite Z.mod_small by lia. lia.
  - rewrite Z.mod_small by lia. lia.
Qed.
Ltac Zify.zify_post_hook ::= idtac.

(** comments without markers leave the marked signals alone *)
Lemma quiet_sum : forall name text todo i m, csm_marker text = None ->
  let m' := comment_loop name text i todo m in g_csm m' = g_csm m /\ g_csmmethod m' = g_csmmethod m /\ g_csmop m' = g_csmop m.
Proof.
  intros name text. induction todo as [|s r IH]; intros i m C; cbn [comment_loop]; auto.
  match goal with |- context [comment_loop name text (S i) r ?x] => set (m' := x) end.
  destruct (IH (S i) m' C) as (A & B & D). cbv zeta in *. rewrite A, B, D. unfold m'. rewrite C.
  destruct (_ || _); auto.
Qed.
Lemma quiet_roll : forall name text todo i m, has_sub "<RollingCounter>" text = false ->
  g_roll (comment_loop name text i todo m) = g_roll m.
Proof.
  intros name text. induction todo as [|s r IH]; intros i m C; cbn [comment_loop]; auto.
  rewrite IH by auto. rewrite C. destruct (_ || _); auto. destruct (csm_marker text) as [[me op]|]; [destruct (_ && _)|]; auto.
Qed.
Lemma index_none : forall c a, not_in (Ascii.eqb c) a -> index 0 (String c "") a = None.
Proof.
  intros c. induction a as [|x a IH]; intros N; [reflexivity|].
  unfold not_in in N. cbn [all_chars] in N. apply andb_true_iff in N as [A N]. apply negb_true_iff in A.
  cbn [index String.prefix]. destruct (ascii_dec c x) as [->|_]; [now rewrite Ascii.eqb_refl in A|]. now rewrite IH.
Qed.
Lemma no_marker : forall t, not_in (Ascii.eqb "<") t -> csm_marker t = None.
Proof. intros t H. unfold csm_marker. now rewrite index_none. Qed.

(** the signal [s] stands at the same place before and after the entries *)
Lemma nth_effects : forall es m i s, nth_error (g_sigs (effects es m)) i = Some s ->
  exists s0, nth_error (g_sigs m) i = Some s0 /\ s = sig_effects es s0.
Proof.
  intros es m i s H. rewrite effects_sigs, nth_error_map in H. destruct (nth_error (g_sigs m) i) as [s0|]; [|discriminate].
  injection H as <-. eauto.
Qed.
Lemma sig_effect_same : forall e s, same_signal (sig_effect e s) s.
Proof.
  intros [id n|id x v|id [x|] t r|l] s; cbn [sig_effect]; try (repeat split; fail).
  - destruct (String.eqb x (s_name s)); repeat split.
  - unfold commented. destruct (_ || _); repeat split.
Qed.
Lemma sig_effects_same : forall es s, same_signal (sig_effects es s) s.
Proof.
  unfold sig_effects. induction es as [|e es IH]; intros s; [repeat split|]. cbn [fold_left].
  pose proof (IH (sig_effect e s)) as A. pose proof (sig_effect_same e s) as B. unfold same_signal in *. intuition congruence.
Qed.

Definition comments_on (i : Z) (e : entry) : option string :=
  match e with EComment id (Some _) t r => if (Z.of_N (plain_id id) =? i)%Z then Some (joined t r) else None | _ => None end.

Theorem checksum_set : forall srt text d es a id n t r b m i s pre meth op post, read_entries srt text d es ->
  es = (a ++ EComment id (Some n) t r :: b)%list -> joined t r = pre ++ marker meth op ++ post ->
  not_in (Ascii.eqb "<") pre -> not_in (fun c => Ascii.eqb ":" c || Ascii.eqb ">" c) meth ->
  not_in (Ascii.eqb ":") (substring 0 (String.length pre - 1) post) -> number op ->
  (forall e u, In e b -> comments_on (Z.of_N (plain_id id)) e = Some u -> not_in (Ascii.eqb "<") u) ->
  In m (d_msgs d) -> g_id m = Z.of_N (plain_id id) ->
  nth_error (g_sigs m) i = Some s -> s_name s = n -> (forall j s', nth_error (g_sigs m) j = Some s' -> matches n s' = true -> j = i) ->
  s_simple s = true -> s_signed s = false -> (0 <= s_start s < 2 ^ 32)%Z -> (0 < s_len s <= 64)%Z -> one_byte s ->
  g_csm m = Some i /\ g_csmmethod m = meth /\ g_csmop m = (Z.of_N op mod 2 ^ 32)%Z.
Proof.
  intros srt text d es a id n t r b m i s pre meth op post R E J P M Q OP L I G NI SN U SI SG SR LR OB.
  destruct (entries_effects _ _ _ _ R) as (ms & _ & D). rewrite D in I. apply in_map_iff in I as (m0 & <- & _).
  assert (G0 : g_id m0 = Z.of_N (plain_id id)) by (rewrite <- G; symmetry; apply effects_same).
  rewrite G0 in *.
  rewrite (split_effects _ _ _ _ _ _ E) in * by (unfold names; cbn; lia).
  set (m1 := effects (filter (names (Z.of_N (plain_id id))) a) m0) in *.
  set (fb := filter (names (Z.of_N (plain_id id))) b) in *.
  destruct (nth_effects _ _ _ _ NI) as (s1 & N1 & ES). cbn [effect] in N1. rewrite comment_sigs, nth_error_map in N1.
  destruct (nth_error (g_sigs m1) i) as [s0|] eqn:N0; [|discriminate]. cbn [option_map] in N1. injection N1 as <-.
  assert (SS : same_signal s s0).
  { pose proof (sig_effects_same fb (commented n (joined t r) s0)) as A. rewrite <- ES in A.
    pose proof (sig_effect_same (EComment id (Some n) t r) s0) as B. cbn [sig_effect] in B. unfold same_signal in *. intuition congruence. }
  unfold same_signal in SS. destruct SS as (T1 & _ & _ & T4 & T5 & _ & T7 & _ & _ & T10 & T11 & _).
  destruct (nth_error_split _ _ N0) as (l1 & l2 & EL & LEN).
  destruct (marker_found pre meth op post P M Q) as (x & MK & X).
  assert (UQ : forallb (fun s => negb (matches n s)) l2 = true).
  { apply forallb_forall. intros y Y. apply negb_true_iff. destruct (matches n y) eqn:MY; [|reflexivity]. exfalso.
    apply In_nth_error in Y as (k & Y).
    assert (NY : nth_error (g_sigs m1) (i + 1 + k) = Some y).
    { rewrite EL, nth_error_app2 by lia. replace (i + 1 + k - List.length l1)%nat with (S k) by lia. exact Y. }
    assert (NY' : nth_error (g_sigs (effects fb (effect (EComment id (Some n) t r) m1))) (i + 1 + k) = Some (sig_effects fb (commented n (joined t r) y))).
    { rewrite effects_sigs, nth_error_map. cbn [effect]. rewrite comment_sigs, nth_error_map, NY. reflexivity. }
    apply U in NY'; [lia|]. unfold matches in *. rewrite sig_effects_name.
    change (commented n (joined t r) y) with (sig_effect (EComment id (Some n) t r) y). now rewrite sig_effect_name. }
  assert (TS : takes_sum s0 = true).
  { unfold takes_sum. rewrite <- T7, <- T11, SI, SG. cbn [andb negb]. rewrite andb_true_r. apply boundary_one; [lia|lia|].
    destruct OB as [bb OB]. exists bb. intros k K. rewrite <- T10, <- T4, <- T5. apply OB. lia. }
  assert (MS : matches n s0 = true) by (unfold matches; rewrite <- T1, SN, String.eqb_refl; reflexivity).
  rewrite <- J in MK. destruct (sum_found n (joined t r) l1 s0 l2 meth (dec op ++ x) m1 EL MS UQ MK TS) as (F1 & F2 & F3).
  rewrite LEN in F1.
  assert (AT : uwrap 32 (atoi (dec op ++ x)) = (Z.of_N op mod 2 ^ 32)%Z).
  { unfold atoi. unfold number in OP. rewrite strtoll_dec.
    - rewrite uwrap_swrap by lia. unfold uwrap. f_equal. lia.
    - destruct X as [-> |[y ->]]; [exact Logic.I|reflexivity]. }
  rewrite AT in F3. clear - L F1 F2 F3. cbn [effect] in *. revert F1 F2 F3. generalize (comment_signals n (joined t r) m1). unfold fb. clear fb.
  induction b as [|e b IH]; intros q F1 F2 F3; [auto|]. cbn [filter].
  assert (L' : forall e u, In e b -> comments_on (Z.of_N (plain_id id)) e = Some u -> not_in (Ascii.eqb "<") u) by (intros; eapply L; [right|]; eauto).
  destruct (names (Z.of_N (plain_id id)) e) eqn:NM; [|auto]. unfold effects in *. cbn [fold_left].
  assert (K : g_csm (effect e q) = g_csm q /\ g_csmmethod (effect e q) = g_csmmethod q /\ g_csmop (effect e q) = g_csmop q).
  { destruct e as [k c|k y v|k [y|] u v|l]; cbn [effect]; try (repeat split; fail).
    apply quiet_sum, no_marker. apply (L (EComment k (Some y) u v)); [now left|]. cbn [comments_on].
    unfold names in NM. cbn [entry_id] in NM. now rewrite NM. }
  destruct K as (K1 & K2 & K3). apply IH; auto; congruence.
Qed.

Theorem counter_set : forall srt text d es a id n t r b m i s, read_entries srt text d es ->
  es = (a ++ EComment id (Some n) t r :: b)%list -> has_sub "<RollingCounter>" (joined t r) = true ->
  (forall e u, In e b -> comments_on (Z.of_N (plain_id id)) e = Some u -> has_sub "<RollingCounter>" u = false) ->
  In m (d_msgs d) -> g_id m = Z.of_N (plain_id id) ->
  nth_error (g_sigs m) i = Some s -> s_name s = n -> (forall j s', nth_error (g_sigs m) j = Some s' -> matches n s' = true -> j = i) ->
  g_roll m = Some i.
Proof.
  intros srt text d es a id n t r b m i s R E J L I G NI SN U.
  destruct (entries_effects _ _ _ _ R) as (ms & _ & D). rewrite D in I. apply in_map_iff in I as (m0 & <- & _).
  assert (G0 : g_id m0 = Z.of_N (plain_id id)) by (rewrite <- G; symmetry; apply effects_same).
  rewrite G0 in *.
  rewrite (split_effects _ _ _ _ _ _ E) in * by (unfold names; cbn; lia).
  set (m1 := effects (filter (names (Z.of_N (plain_id id))) a) m0) in *.
  set (fb := filter (names (Z.of_N (plain_id id))) b) in *.
  destruct (nth_effects _ _ _ _ NI) as (s1 & N1 & ES). cbn [effect] in N1. rewrite comment_sigs, nth_error_map in N1.
  destruct (nth_error (g_sigs m1) i) as [s0|] eqn:N0; [|discriminate]. cbn [option_map] in N1. injection N1 as <-.
  assert (T1 : s_name s = s_name s0).
  { rewrite ES, sig_effects_name. apply (sig_effect_name (EComment id (Some n) t r)). }
  destruct (nth_error_split _ _ N0) as (l1 & l2 & EL & LEN).
  assert (UQ : forallb (fun s => negb (matches n s)) l2 = true).
  { apply forallb_forall. intros y Y. apply negb_true_iff. destruct (matches n y) eqn:MY; [|reflexivity]. exfalso.
    apply In_nth_error in Y as (k & Y).
    assert (NY : nth_error (g_sigs m1) (i + 1 + k) = Some y).
    { rewrite EL, nth_error_app2 by lia. replace (i + 1 + k - List.length l1)%nat with (S k) by lia. exact Y. }
    assert (NY' : nth_error (g_sigs (effects fb (effect (EComment id (Some n) t r) m1))) (i + 1 + k) = Some (sig_effects fb (commented n (joined t r) y))).
    { rewrite effects_sigs, nth_error_map. cbn [effect]. rewrite comment_sigs, nth_error_map, NY. reflexivity. }
    apply U in NY'; [lia|]. unfold matches in *. rewrite sig_effects_name.
    change (commented n (joined t r) y) with (sig_effect (EComment id (Some n) t r) y). now rewrite sig_effect_name. }
  assert (MS : matches n s0 = true) by (unfold matches; rewrite <- T1, SN, String.eqb_refl; reflexivity).
  pose proof (roll_found n (joined t r) l1 s0 l2 m1 EL MS UQ J) as F1. rewrite LEN in F1.
  clear - L F1. cbn [effect] in *. revert F1. generalize (comment_signals n (joined t r) m1). unfold fb. clear fb.
  induction b as [|e b IH]; intros q F1; [auto|]. cbn [filter].
  assert (L' : forall e u, In e b -> comments_on (Z.of_N (plain_id id)) e = Some u -> has_sub "<RollingCounter>" u = false) by (intros; eapply L; [right|]; eauto).
  destruct (names (Z.of_N (plain_id id)) e) eqn:NM; [|auto]. unfold effects in *. cbn [fold_left].
  apply IH; auto. rewrite <- F1. destruct e as [k c|k y v|k [y|] u v|l]; cbn [effect]; auto.
  apply quiet_roll. apply (L (EComment k (Some y) u v)); [now left|]. cbn [comments_on]. unfold names in NM. cbn [entry_id] in NM. now rewrite NM.
Qed.
