(** Reading a printed file. *)

From Coq Require Import Permutation ZArith NArith List String Ascii Bool Lia ZifyBool.
From Verif Require Import Base Dbl CSyntax Types Formatter MainGen LineParser Scanner LexLemmas ScanSpec ScanLemmas ScanLines ScanPass1 ScanPass2 ScanThms SigSpec SigLine.
Import ListNotations.
Open Scope string_scope.

(** *** Lines of a text *)
Lemma lines_one : forall l acc r, lacks NL l = true -> getlines_from acc (l ++ String NL r) = (rev_string acc ++ l) :: getlines_from "" r.
Proof.
  induction l as [|c l IH]; intros acc r N.
  - cbn [append getlines_from]. rewrite Ascii.eqb_refl. now rewrite app_nil_r.
  - unfold lacks in N. cbn [all_chars] in N. apply andb_true_iff in N as [C N]. rewrite app_cons. cbn [getlines_from].
    destruct (Ascii.eqb c NL) eqn:Q; [discriminate C|]. rewrite IH by exact N. f_equal. rewrite rev_cons, app_assoc. reflexivity.
Qed.
Lemma lines_all : forall ls, (forall l, In l ls -> lacks NL l = true) -> getlines (sconcat (map (fun l => l ++ nl) ls)) = ls.
Proof.
  unfold getlines. induction ls as [|l ls IH]; intros H; [reflexivity|]. cbn [map sconcat fold_right]. rewrite app_assoc. change (nl ++ ?x) with (String NL x).
  rewrite lines_one by (apply H; now left). cbn [rev_string]. f_equal. apply IH. intros; apply H; now right.
Qed.

(** *** Lines that are no signals *)
Lemma colon_skip : forall a f acc seen r, no_colon a = true -> ends_visible a = true ->
  exists acc', rev_string acc' = rev_string acc ++ a /\ split_colon_from (String.length a + f) acc seen (a ++ r) = split_colon_from f acc' seen r.
Proof.
  induction a as [|c a IH]; intros f acc seen r N V; [discriminate|]. cbn [String.length Nat.add]. rewrite app_cons. cbn [split_colon_from].
  rewrite <- app_cons, colon_none by auto. destruct a as [|d a].
  - exists (String c acc). split; [now rewrite rev_cons|reflexivity].
  - destruct (IH f (String c acc) seen r) as (acc' & R & E); [unfold no_colon in *; cbn [all_chars] in *; apply andb_true_iff in N; tauto|exact V|].
    exists acc'. split; [|exact E]. rewrite R, rev_cons, app_assoc. reflexivity.
Qed.
Lemma colon_tight : forall a t, no_colon a = true -> ends_visible a = true -> no_colon t = true -> split_colon (a ++ String ":" t) = [a ++ String ":" t].
Proof.
  intros a t A V T. unfold split_colon. rewrite app_len. cbn [String.length]. replace (S (String.length a + S (String.length t))) with (String.length a + S (S (String.length t)))%nat by lia.
  destruct (colon_skip a (S (S (String.length t))) "" false (String ":" t) A V) as (acc' & R & E). rewrite E. clear E. remember (S (String.length t)) as f eqn:F. cbn [split_colon_from].
  change (match_colon (String ":" t)) with (@None string). cbv iota. rewrite colon_rest; auto; [| |].
  - rewrite rev_cons, R. cbn [rev_string append]. now rewrite app_assoc.
  - lia.
  - rewrite rev_cons. destruct (rev_string acc'); discriminate.
Qed.
Lemma colon_none_at_all : forall t, no_colon t = true -> (List.length (split_colon t) < 2)%nat.
Proof.
  intros t T. unfold split_colon. destruct t as [|c t]; [cbn; lia|]. rewrite colon_rest; auto. discriminate.
Qed.
Lemma white_space : forall c, white c = is_space c.
Proof. reflexivity. Qed.
Lemma spaced_tail : forall c s, spaced_colon (String c s) = false -> spaced_colon s = false.
Proof. intros c s H. cbn [spaced_colon] in H. now apply orb_false_iff in H. Qed.
Lemma spaced_drop : forall s c, is_space c = true -> spaced_colon (String c s) = false ->
  match drop_while is_space (String c s) with String k (String d _) => Ascii.eqb k ":" = true -> is_space d = false | _ => True end.
Proof.
  induction s as [|k s IH]; intros c C H; [cbn [drop_while]; now rewrite C|]. cbn [drop_while]. rewrite C.
  destruct (is_space k) eqn:K; [pose proof (IH k K (spaced_tail _ _ H)) as X; cbn [drop_while] in X; now rewrite K in X|].
  destruct s as [|d s]; [exact I|]. intros Q. cbn [spaced_colon] in H. apply orb_false_iff in H as [H _]. rewrite !white_space, C, Q in H. exact H.
Qed.
Lemma spaced_match : forall s, spaced_colon s = false -> match_colon s = None.
Proof.
  intros [|c s] H; [reflexivity|]. unfold match_colon. destruct (is_space c) eqn:C; [|reflexivity]. pose proof (spaced_drop s c C H) as D.
  destruct (drop_while is_space (String c s)) as [|k [|d u]]; [reflexivity|now destruct (Ascii.eqb k ":")|]. destruct (Ascii.eqb k ":"); [|reflexivity]. now rewrite D.
Qed.
Lemma spaced_split : forall s f acc seen, spaced_colon s = false -> (List.length (split_colon_from f acc seen s) < 2)%nat.
Proof.
  induction s as [|c s IH]; intros f acc seen H; (destruct f as [|f]; [cbn; lia|]); cbn [split_colon_from].
  - destruct (seen && String.eqb acc ""); cbn; lia.
  - rewrite (spaced_match _ H). apply IH. now apply spaced_tail in H.
Qed.
Lemma spaced_app : forall s t, spaced_colon (s ++ t) = false -> spaced_colon s = false.
Proof.
  induction s as [|a s IH]; intros t H; [reflexivity|]. rewrite app_cons in H. pose proof (spaced_tail _ _ H) as X. apply IH in X.
  cbn [spaced_colon] in *. rewrite X, orb_false_r. apply orb_false_iff in H as [H _]. destruct s as [|b [|c s]]; try reflexivity. exact H.
Qed.
Lemma no_signal : forall l, (List.length (split_colon l) < 2)%nat -> parse_signal_line l = Ok None.
Proof. intros l H. unfold parse_signal_line. cbv zeta. apply Nat.ltb_lt in H. now rewrite H. Qed.

Lemma trim_prefix : forall s, s <> "" -> exists t, s = str_trim s ++ t.
Proof.
  intros s E. assert (X : str_trim s = rtrim_chars s) by (destruct s; [congruence|reflexivity]). rewrite X. clear E X.
  induction s as [|c s (t & IH)]; [now exists ""|]. cbn [rtrim_chars]. destruct (rtrim_chars s) as [|d u].
  - destruct (32 <? schar c)%Z; [exists s|exists (String c s)]; reflexivity.
  - exists t. cbn [append]. f_equal. exact IH.
Qed.
Lemma prefix_app : forall p s t, String.prefix p s = true -> String.prefix p (s ++ t) = true.
Proof.
  induction p as [|c p IH]; intros s t H; [destruct (s ++ t); reflexivity|]. destruct s as [|d s]; [discriminate|]. rewrite app_cons. cbn [String.prefix] in *.
  destruct (ascii_dec c d); [auto|discriminate].
Qed.
Lemma signal_mentions : forall s t, is_signal_line s = true -> mentions "SG_" (s ++ t) = true.
Proof.
  induction s as [|c s IH]; intros t H; [discriminate|]. rewrite app_cons. cbn [is_signal_line mentions] in *. apply orb_true_iff in H as [H|H]; apply orb_true_iff; right; auto.
  apply andb_true_iff in H as [_ H]. change (starts_with "SG_" s) with (String.prefix "SG_" s) in H. apply (prefix_app _ _ t) in H.
  destruct (s ++ t); [discriminate|]. cbn [mentions]. now rewrite H.
Qed.

Definition quiet (l : string) : Prop := is_message_line l = false /\ sig_of l = [].
Lemma other_quiet : forall l, other_line l -> quiet (str_trim l).
Proof.
  intros l (_ & P & M). destruct (string_dec l "") as [->|E]; [split; reflexivity|]. destruct (trim_prefix l E) as (t & X). split.
  - destruct (is_message_line (str_trim l)) eqn:Q; auto. change (is_message_line (str_trim l)) with (String.prefix "BO_ " (str_trim l)) in Q.
    apply (prefix_app _ _ t) in Q. rewrite <- X in Q. congruence.
  - unfold sig_of. destruct (is_signal_line (str_trim l)) eqn:Q; auto. destruct M as [M|M].
    + apply (signal_mentions _ t) in Q. rewrite <- X in Q. congruence.
    + rewrite no_signal; auto. apply spaced_split. rewrite X in M. now apply spaced_app in M.
Qed.

(** *** Message lines and signal lines *)
Lemma node_solid : forall c, node_char c = true -> (32 <? code c)%N && (code c <? 128)%N = true.
Proof. apply ascii_impl. vm_compute. reflexivity. Qed.
Lemma name_solid : forall s, node_name s -> solid_end s = true.
Proof. intros s [E A]. apply solid_node; auto. eapply all_chars_impl; [apply node_solid|exact A]. Qed.

Lemma bo_trim : forall id name dlc tx, node_name tx -> str_trim (bo_line id name dlc tx) = bo_line id name dlc tx.
Proof.
  intros id name dlc tx T. apply trim_solid. unfold bo_line. pose proof (proj1 T) as E.
  repeat (rewrite solid_app; [|try discriminate; repeat match goal with |- ?a ++ ?b <> "" => first [discriminate | destruct a; [|discriminate]; cbn [append]] end; try discriminate; auto]).
  now apply name_solid.
Qed.

Lemma lacks_app : forall c a b, lacks c (a ++ b) = lacks c a && lacks c b.
Proof. intros. apply all_chars_app. Qed.
Lemma node_line : forall s, all_chars node_char s = true -> lacks NL s = true.
Proof. intros s H. eapply all_chars_impl; [|exact H]. apply ascii_impl. vm_compute. reflexivity. Qed.
Lemma dec_line : forall n, lacks NL (dec n) = true.
Proof. intros n. eapply all_chars_impl; [|apply dec_digits]. apply ascii_impl. vm_compute. reflexivity. Qed.
Lemma mark_line : forall m, lacks NL (mark_text m) = true.
Proof. intros [| |n]; cbn [mark_text]; auto. rewrite lacks_app, dec_line. reflexivity. Qed.

Lemma sig_oneline : forall d, decl_ok d -> lacks NL (sig_line d) = true.
Proof.
  intros d [[_ N] _ _ F O L H U _ R]. rewrite line_shape. change (String DQ (?u ++ String DQ ?r)) with (dq ++ u ++ dq ++ r). rewrite !lacks_app, (node_line _ N), mark_line.
  assert (V : lacks NL (value_part (sd_start d) (sd_len d) (sign_mark (sd_order d) (sd_signed d)) (num_text (sd_factor d)) (num_text (sd_offset d)) (sd_low d) (sd_high d)) = true).
  { apply value_chars; auto using sign_bound, num_bound. apply ascii_impl. vm_compute. reflexivity. }
  assert (C : lacks NL (commas (sd_recs d)) = true) by (apply commas_chars; auto; apply ascii_impl; vm_compute; reflexivity).
  assert (UL : lacks NL (sd_unit d) = true) by (eapply all_chars_impl; [|exact U]; apply ascii_impl; vm_compute; reflexivity).
  rewrite V, C, UL. reflexivity.
Qed.
Lemma bo_oneline : forall id name dlc tx, node_name name -> node_name tx -> lacks NL (bo_line id name dlc tx) = true.
Proof. intros id name dlc tx [_ N] [_ T]. unfold bo_line. rewrite !lacks_app, !dec_line, (node_line _ N), (node_line _ T). reflexivity. Qed.

Lemma commas_solid : forall l, l <> [] -> (forall x, In x l -> node_name x) -> solid_end (commas l) = true.
Proof.
  intros l E R. destruct (commas_vis l E R) as (C & _). apply solid_node; auto. apply commas_chars; auto. apply node_solid.
Qed.
Lemma sig_trim : forall d, decl_ok d -> str_trim (sig_line d) = sig_line d.
Proof.
  intros d [_ _ _ _ _ _ _ _ E R]. apply trim_solid. rewrite line_shape. destruct (commas_vis _ E R) as (C & _). change (String DQ (?u ++ String DQ ?r)) with (dq ++ u ++ dq ++ r).
  repeat (rewrite solid_app; [|try discriminate; repeat match goal with |- ?a ++ ?b <> "" => first [discriminate | destruct a; [|discriminate]; cbn [append]] end; try discriminate; auto]).
  now apply commas_solid.
Qed.

Lemma bo_open : forall id name dlc tx, closes (bo_line id name dlc tx) = false.
Proof.
  intros. unfold closes, parse_multi_trans, bo_line. set (r := dec id ++ _). change (split_runs trans_delim ("BO_ " ++ r)) with ("BO_" :: split_runs_from trans_delim "" true r).
  cbv zeta. cbn [nth]. change (String.eqb "BO_" "BO_TX_BU_") with false. now rewrite andb_false_r.
Qed.
Lemma sig_open : forall d, closes (sig_line d) = false.
Proof.
  intros. unfold closes, parse_multi_trans, sig_line, sg_line. set (r := sd_name d ++ _).
  change (split_runs trans_delim (" SG_ " ++ r)) with ("" :: "SG_" :: split_runs_from trans_delim "" true r).
  cbv zeta. cbn [nth]. change (String.eqb "" "BO_TX_BU_") with false. now rewrite andb_false_r.
Qed.
Lemma sig_is_signal : forall d, is_signal_line (sig_line d) = true /\ is_message_line (sig_line d) = false.
Proof. intros d. split; reflexivity. Qed.
Lemma bo_one : forall id name dlc tx, node_name name -> node_name tx -> (List.length (split_colon (bo_line id name dlc tx)) < 2)%nat.
Proof.
  intros id name dlc tx [N1 N2] [_ T].
  replace (bo_line id name dlc tx) with (("BO_ " ++ dec id ++ " " ++ name) ++ String ":" (" " ++ dec dlc ++ " " ++ tx)) by (unfold bo_line; rewrite !app_assoc; reflexivity).
  assert (D : forall n, no_colon (dec n) = true) by (intros n; eapply all_chars_impl; [|apply dec_digits]; apply ascii_impl; vm_compute; reflexivity).
  assert (W : forall s, all_chars node_char s = true -> no_colon s = true) by (intros s; apply all_chars_impl, node_nocolon).
  rewrite colon_tight.
  - cbn [List.length]. lia.
  - unfold no_colon in *. rewrite !all_chars_app, D, (W _ N2). reflexivity.
  - rewrite !vis_app; auto; try discriminate; try (destruct (dec id); [|discriminate]; discriminate).
    destruct (all_last _ _ N1 N2) as (c & E & C). unfold ends_visible. now rewrite E, (node_vis _ C).
  - unfold no_colon in *. rewrite !all_chars_app, D, (W _ T). reflexivity.
Qed.
Lemma bo_none : forall id name dlc tx, node_name name -> node_name tx -> sig_of (bo_line id name dlc tx) = [].
Proof. intros id name dlc tx N T. unfold sig_of. destruct (is_signal_line _); auto. rewrite no_signal; auto. now apply bo_one. Qed.

(** *** The groups of a printed file *)
Definition group_of (m : msgdecl) (g : string * list string) : Prop :=
  fst g = bo_line (md_id m) (md_name m) (md_dlc m) (md_tx m) /\ exists rest, snd g = (map sig_line (md_sigs m) ++ rest)%list /\ forall l, In l rest -> quiet l.
Lemma groups_signals : forall ds ls, groups (map sig_line ds ++ ls) = ((map sig_line ds ++ fst (groups ls))%list, snd (groups ls)).
Proof.
  induction ds as [|d ds IH]; intros ls; cbn [map List.app groups]; [destruct (groups ls); reflexivity|]. rewrite IH. reflexivity.
Qed.
Lemma file_groups : forall bs, (forall b, In b bs -> block_ok b) ->
  let g := groups (map str_trim (flat_map block_lines bs)) in (forall l, In l (fst g) -> quiet l) /\ Forall2 group_of (file_msgs bs) (snd g).
Proof.
  induction bs as [|b bs IH]; intros OK; cbv zeta; [split; [contradiction|constructor]|].
  destruct (IH (fun x X => OK x (or_intror X))) as [I1 I2]. pose proof (OK b (or_introl eq_refl)) as B. cbn [flat_map]. rewrite map_app.
  unfold file_msgs. cbn [flat_map]. fold (file_msgs bs). destruct b as [m|l]; cbn [block_lines block_msgs block_ok msg_lines map List.app] in *.
  - destruct B as [_ _ N T S]. rewrite bo_trim by auto. rewrite (map_map sig_line).
    replace (map (fun x => str_trim (sig_line x)) (md_sigs m)) with (map sig_line (md_sigs m)).
    + cbn [groups]. rewrite groups_signals. assert (PB : forall id n k t, String.prefix "BO_ " (bo_line id n k t) = true) by (intros; unfold bo_line; apply (prefix_app "BO_ " "BO_ "); reflexivity).
      rewrite PB. cbv iota. cbn [fst snd]. split; [contradiction|].
      constructor; [|exact I2]. split; [reflexivity|]. exists (fst (groups (map str_trim (flat_map block_lines bs)))). auto.
    + apply map_ext_in. intros d D. symmetry. apply sig_trim, S, D.
  - cbn [groups]. destruct (groups (map str_trim (flat_map block_lines bs))) as [pre gs]. pose proof (other_quiet _ B) as Q.
    change (String.prefix "BO_ " (str_trim l)) with (is_message_line (str_trim l)). rewrite (proj1 Q). cbn [fst snd] in *. split; [|exact I2].
    intros x [<-|X]; auto.
Qed.

Lemma upto_open : forall A (p : A -> bool) a b, (forall x, In x a -> p x = false) -> upto p (a ++ b) = (a ++ upto p b)%list.
Proof. induction a as [|x a IH]; intros b H; [reflexivity|]. cbn [List.app upto]. rewrite (H x) by now left. rewrite IH; auto. intros; apply H; now right. Qed.
Lemma upto_in : forall A (p : A -> bool) l x, In x (upto p l) -> In x l.
Proof. induction l as [|y l IH]; intros x H; [contradiction|]. cbn [upto] in H. destruct H as [H|H]; [now left|]. destruct (p y); [contradiction|right; auto]. Qed.
Lemma flat_quiet : forall ls, (forall l, In l ls -> quiet l) -> flat_map sig_of ls = [].
Proof. induction ls as [|l ls IH]; intros H; [reflexivity|]. cbn [flat_map]. rewrite (proj2 (H l (or_introl eq_refl))). apply IH. intros; apply H; now right. Qed.

Lemma group_signals : forall m g, mdecl_ok m -> group_of m g ->
  (forall x, In x (upto closes (fst g :: snd g)) -> is_signal_line x = true -> exists o, parse_signal_line x = Ok o) ->
  Forall2 read_as (md_sigs m) (accepted (fst g :: snd g)).
Proof.
  intros m g [_ _ N T S] (E1 & rest & E2 & Q) F. unfold accepted. rewrite E1, E2 in *. change (?a :: map sig_line (md_sigs m) ++ rest)%list with ((a :: map sig_line (md_sigs m)) ++ rest)%list in *.
  rewrite upto_open in * by (intros x [<-|X]; [apply bo_open|apply in_map_iff in X as (d & <- & _); apply sig_open]).
  rewrite flat_map_app. cbn [flat_map]. rewrite bo_none by auto. rewrite (flat_quiet (upto closes rest)) by (intros l L; apply Q; eapply upto_in; eauto). rewrite List.app_nil_r. cbn [List.app].
  assert (G : forall d, In d (md_sigs m) -> exists o, parse_signal_line (sig_line d) = Ok o).
  { intros d D. apply F; [|reflexivity]. apply in_or_app. left. right. now apply in_map. }
  clear F Q E1 E2. revert S G. induction (md_sigs m) as [|d ds IH]; intros S G; [constructor|]. cbn [map flat_map].
  destruct (G d (or_introl eq_refl)) as (o & P). destruct (S d (or_introl eq_refl)) as (O1 & O2 & O3). destruct (line_as _ _ O1 O2 O3 P) as (s & -> & R).
  unfold sig_of at 1. change (is_signal_line (sig_line d)) with true. cbv iota. rewrite P. cbn [List.app]. constructor; auto. apply IH; intros; [apply S|apply G]; now right.
Qed.

Lemma header_read : forall m, mdecl_ok m -> exists m0, parse_message_line (bo_line (md_id m) (md_name m) (md_dlc m) (md_tx m)) = Some m0 /\
  g_name m0 = md_name m /\ g_id m0 = Z.of_N (plain_id (md_id m)) /\ g_ext m0 = (if N.testbit (md_id m) 31 then 1 else 0)%Z /\ g_dlc m0 = Z.of_N (md_dlc m).
Proof.
  intros m [I (H1 & H2 & H3) [_ N] [T0 T] _]. change (2 ^ 32)%N with 4294967296%N in I.
  rewrite parse_bo; [|lia|lia|eapply not_in_of; [exact N|apply ascii_excl; vm_compute; reflexivity]|eapply not_in_of; [exact T|apply ascii_excl; vm_compute; reflexivity]|exact T0].
  cbv zeta. rewrite (Z.mod_small (Z.of_N (md_id m))) by lia. rewrite (Z.mod_small (Z.of_N (md_dlc m))) by lia.
  replace 29%Z with (Z.of_N 29) by reflexivity. replace 30%Z with (Z.of_N 30) by reflexivity. replace 31%Z with (Z.of_N 31) by reflexivity.
  rewrite !Z.testbit_of_N, H1, H2. destruct (_ || _) eqn:X; [cbn [orb] in X; lia|]. eexists. split; [reflexivity|]. cbn [g_name g_id g_ext g_dlc].
  repeat split; auto. unfold plain_id. now rewrite N2Z.inj_mod.
Qed.

Theorem file_read : forall srt bs d, (forall A (key : A -> Z) l, Permutation (srt A key l) l) -> (forall b, In b bs -> block_ok b) ->
  scan srt (file_text bs) = Ok d -> Forall2 read_message (file_msgs bs) (d_msgs d).
Proof.
  intros srt bs d SR OK H. pose proof (scan_messages _ _ _ H) as F. destruct (scan_passes _ _ _ H) as (d1 & I & _).
  assert (GL : getlines (file_text bs) = flat_map block_lines bs).
  { apply lines_all. intros l L. apply in_flat_map in L as (b & B & L). specialize (OK b B). destruct b as [m|x]; cbn [block_lines block_ok] in *.
    - destruct OK as [_ _ N T S]. destruct L as [<-|L]; [now apply bo_oneline|]. apply in_map_iff in L as (s & <- & X). apply sig_oneline, S, X.
    - destruct L as [<-|[]]. apply OK. }
  assert (FI : fine false (map str_trim (getlines (file_text bs)))).
  { unfold parse_message_info in I. destruct (fold_res _ _ _) as [st| |] eqn:E; try discriminate. apply (fold_fine _ _ _ _ E). }
  apply fine_groups in FI. destruct FI as [_ FI]. unfold accepted_lines, message_lines in F. rewrite GL in *.
  destruct (file_groups bs OK) as [_ FG]. cbv zeta in FG.
  assert (MO : forall m, In m (file_msgs bs) -> mdecl_ok m).
  { intros m M. apply in_flat_map in M as ([m'|x] & B & E); [|contradiction]. destruct E as [E|[]]. subst m'. apply (OK _ B). }
  revert FI F FG. generalize (snd (groups (map str_trim (flat_map block_lines bs)))) as gs. generalize (d_msgs d) as ms. revert MO. generalize (file_msgs bs) as ds.
  clear -SR. intros ds MO ms gs FI F FG. revert ms FI F. induction FG as [|md g ds gs G FG IH]; intros ms FI F; [inversion F; constructor|].
  destruct (header_read md (MO md (or_introl eq_refl))) as (m0 & P & N1 & N2 & N3 & N4). cbn [filter] in F. rewrite (proj1 G), P in F. cbn [some] in F.
  inversion F as [|m' g' ms' gs' K F' ]; subst. constructor; [|apply IH; auto; intros; [apply MO; now right|eapply FI; eauto; now right]].
  destruct K as (m1 & sigs & [L A B C D MS SS _ _]). assert (m1 = m0) by (rewrite (proj1 G) in L; congruence). subst m1.
  constructor; try congruence. assert (R : Forall2 read_as (md_sigs md) (accepted (fst g :: snd g))).
  { apply group_signals; auto; [apply MO; now left|]. apply FI; [now left|]. now rewrite (proj1 G), P. }
  pose proof (SR signal s_start (accepted (fst g :: snd g))) as PM. rewrite <- MS in PM.
  apply flip2 in R. destruct (Permutation_Forall2 (Permutation_sym PM) R) as (sds' & P' & R'). exists sds'. split; [now symmetry|].
  apply flip2 in R'. clear -R' SS. revert sds' R'. induction SS as [|x y xs ys S SS IH]; intros sds' R; inversion R; subst; constructor; auto. eapply read_same; eauto.
Qed.
