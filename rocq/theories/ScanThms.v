(** Results about whole files. *)

From Coq Require Import ZArith NArith List String Ascii Bool Lia ZifyBool Permutation Sorted.
From Verif Require Import Base Dbl CSyntax Types Formatter MainGen LineParser Scanner LexLemmas CliProof DriverSpec ScanSpec ScanLemmas ScanLines ScanPass1 ScanPass2 ScanFile.
Import ListNotations.
Open Scope string_scope.

Lemma some_inj : forall A (a b : A), Some a = Some b -> a = b.
Proof. congruence. Qed.
Lemma ok_some_inj : forall A (a b : A), Ok (Some a) = Ok (Some b) -> a = b.
Proof. congruence. Qed.
Definition some {A} (o : option A) : bool := match o with Some _ => true | None => false end.
(** message lines of a file, each with the lines that follow it *)
Definition message_lines (text : string) : list (string * list string) := snd (groups (map str_trim (getlines text))).
Definition accepted_lines (text : string) : list (string * list string) :=
  filter (fun g => some (parse_message_line (fst g))) (message_lines text).

Lemma scan_passes : forall srt text d, scan srt text = Ok d -> exists d1, parse_message_info srt (getlines text) = Ok d1 /\
  d_msgs d = parse_other_info (d_msgs d1) (getlines text) /\ d_maxdlc d = d_maxdlc d1 /\ d_verhi d = d_verhi d1 /\ d_verlow d = d_verlow d1.
Proof.
  intros srt text d H. unfold scan in H. destruct (parse_message_info srt (getlines text)) as [d1| |]; try discriminate.
  cbn [bind] in H. injection H as <-. exists d1. repeat split.
Qed.

(** what a message line with its followers gives *)
Record made_from (srt : sorter) (m : message) (g : string * list string) (m0 : message) (sigs : list signal) : Prop := {
  mf_line : parse_message_line (fst g) = Some m0;
  mf_name : g_name m = g_name m0;
  mf_id : g_id m = g_id m0;
  mf_ext : g_ext m = g_ext m0;
  mf_dlc : g_dlc m = g_dlc m0;
  mf_sorted : sigs = srt signal s_start (accepted (fst g :: snd g));
  mf_sigs : Forall2 same_signal (g_sigs m) sigs;
  mf_recs : g_recs m = fold_left add_new (flat_map s_recs sigs) [];
  mf_notempty : g_notempty m = negb (match accepted (fst g :: snd g) with [] => true | _ => false end);
  mf_phys : g_hasphys m = existsb (fun s => s_double s || negb (s_simple s)) (accepted (fst g :: snd g))
}.

Lemma line_fresh : forall l m, parse_message_line l = Some m ->
  g_sigs m = [] /\ g_recs m = [] /\ g_cycle m = 0%Z /\ g_comment m = "" /\ g_notempty m = false /\ g_roll m = None /\ g_csm m = None /\
  g_hasphys m = false.
Proof.
  intros l m H. unfold parse_message_line in H. cbv zeta in H. destruct (_ <? 5)%nat; [discriminate|].
  destruct (_ || _); [discriminate|]. apply some_inj in H; subst m. repeat split.
Qed.

Lemma filter_grp : forall srt gs, Forall2 (fun m g => exists m0, parse_message_line (fst g) = Some m0 /\ m = finish srt (pushes m0 (accepted (fst g :: snd g))))
  (flat_map (grp srt) gs) (filter (fun g => some (parse_message_line (fst g))) gs).
Proof.
  intros srt. induction gs as [|g gs IH]; [constructor|]. cbn [flat_map filter]. unfold grp at 1.
  destruct (parse_message_line (fst g)) as [m0|] eqn:E; cbn [some option_map opt List.app]; [|exact IH].
  constructor; [|exact IH]. exists m0. auto.
Qed.

Lemma forall2_compose : forall A B C (R : A -> B -> Prop) (Q : B -> C -> Prop) (S : A -> C -> Prop) a b c,
  (forall x y z, R x y -> Q y z -> S x z) -> Forall2 R a b -> Forall2 Q b c -> Forall2 S a c.
Proof.
  intros A B C R Q S a b c T H. revert c. induction H; intros c K; inversion K; subst; constructor; eauto.
Qed.

Lemma forall2_impl : forall A B (R Q : A -> B -> Prop) a b, (forall x y, R x y -> Q x y) -> Forall2 R a b -> Forall2 Q a b.
Proof. intros A B R Q a b I H. induction H; constructor; auto. Qed.

Lemma info_messages : forall srt ls d, parse_message_info srt ls = Ok d ->
  Forall2 but_trans (d_msgs d) (flat_map (grp srt) (snd (groups (map str_trim ls)))).
Proof.
  intros srt ls d H. unfold parse_message_info in H. destruct (fold_res _ _ _) as [st| |] eqn:E; try discriminate.
  cbn [bind] in H. injection H as <-. cbn [d_msgs]. apply pass1_messages in E. cbn [p_msgs p_cur List.app] in E.
  unfold rest_of in E. cbn in E. exact E.
Qed.

Lemma pushes_phys : forall l m, g_hasphys (pushes m l) = g_hasphys m || existsb (fun s => s_double s || negb (s_simple s)) l.
Proof.
  induction l as [|s l IH]; intros m; cbn [existsb]; [now rewrite orb_false_r|]. change (pushes m (s :: l)) with (pushes (push_sig m s) l).
  rewrite IH. cbn [push_sig g_hasphys]. rewrite !orb_assoc. reflexivity.
Qed.

Theorem scan_messages : forall srt text d, scan srt text = Ok d ->
  Forall2 (fun m g => exists m0 sigs, made_from srt m g m0 sigs) (d_msgs d) (accepted_lines text).
Proof.
  intros srt text d H. destruct (scan_passes _ _ _ H) as (d1 & I & E & _). rewrite E.
  apply info_messages in I. pose proof (filter_grp srt (message_lines text)) as F. unfold accepted_lines.
  assert (G : Forall2 (fun m g => exists m0 t, parse_message_line (fst g) = Some m0 /\
    m = with_trans (finish srt (pushes m0 (accepted (fst g :: snd g)))) t) (d_msgs d1) (filter (fun g => some (parse_message_line (fst g))) (message_lines text))).
  { eapply forall2_compose; [|exact I|exact F]. cbn beta. intros x y z [t ->] (m0 & P & ->). exists m0, t. auto. }
  clear I F. eapply forall2_compose; [|apply other_same|exact G].
  cbn beta. intros x y g S (m0 & t & P & ->). destruct (line_fresh _ _ P) as (L1 & L2 & L3 & L4 & L5 & L6 & L7 & L8).
  destruct (pushes_header (accepted (fst g :: snd g)) m0) as (A & B & C & D & RR & _ & _).
  exists m0, (srt signal s_start (accepted (fst g :: snd g))).
  assert (SG : g_sigs (pushes m0 (accepted (fst g :: snd g))) = accepted (fst g :: snd g)) by now rewrite pushes_sigs, L1.
  destruct S as [S1 S2 S3 S4 S5 S6 S7 S8 S9]. cbn [with_trans finish with_sigs g_name g_dlc g_id g_ext g_recs g_sigs g_notempty g_hasphys] in *.
  rewrite SG in *. constructor; auto; try congruence.
  all: first [rewrite S2; apply pushes_dlc | rewrite S6, RR, L2; reflexivity | rewrite S8, pushes_notempty, L5; reflexivity | rewrite S7, pushes_phys, L8; reflexivity].
Qed.

(** *** Lists without duplicates *)
Lemma recs_spec : forall l, NoDup (fold_left add_new l []) /\ forall x, In x (fold_left add_new l []) <-> In x l.
Proof.
  intros l. split; [apply union_nodup; constructor|]. intros x. rewrite union_in. cbn. tauto.
Qed.

(** *** Maximal length *)
Theorem scan_max : forall srt text d, scan srt text = Ok d -> d_maxdlc d = counted (message_lines text).
Proof.
  intros srt text d H. destruct (scan_passes _ _ _ H) as (d1 & I & _ & M & _). rewrite M. unfold parse_message_info in I.
  destruct (fold_res _ _ _) as [st| |] eqn:E; try discriminate. cbn [bind] in I. injection I as <-. cbn [d_maxdlc].
  apply pass1_max in E; [|cbn; lia]. unfold message_lines. destruct (groups (map str_trim (getlines text))) as [pre gs].
  rewrite E. cbn [p_max p_cur cur_max snd]. pose proof (counted_nonneg gs). lia.
Qed.
Lemma but_last_in : forall A (x : A) l, In x (but_last l) <-> exists a b, l = (a ++ x :: b)%list /\ b <> [].
Proof.
  intros A x. induction l as [|y l IH]; cbn [but_last].
  - split; [intros []|]. intros (a & b & E & _). destruct a; discriminate.
  - destruct l as [|z l].
    + split; [intros []|]. intros (a & b & E & N). destruct a as [|? [|]]; cbn in E; try discriminate. injection E as _ E. congruence.
    + cbn [In]. rewrite IH. split.
      * intros [<-|(a & b & E & N)]; [exists [], (z :: l)%list; split; [reflexivity|discriminate]|].
        exists (y :: a)%list, b. split; [|exact N]. cbn. now rewrite E.
      * intros (a & b & E & N). destruct a as [|w a]; cbn in E; injection E as -> E; [now left|right].
        exists a, b. auto.
Qed.
Lemma max_in : forall l, fold_right Z.max 0%Z l = 0%Z \/ In (fold_right Z.max 0%Z l) l.
Proof.
  induction l as [|a l IH]; [now left|]. cbn [fold_right In].
  destruct (Z.max_spec a (fold_right Z.max 0%Z l)) as [[_ E]|[_ E]]; rewrite E; [|auto].
  destruct IH as [IH|IH]; auto.
Qed.
Lemma max_ge : forall l x, In x l -> (x <= fold_right Z.max 0 l)%Z.
Proof. induction l as [|a l IH]; intros x; [intros []|]. intros [<-|I]; cbn [fold_right]; [lia|]. specialize (IH _ I). lia. Qed.

Lemma line_dlc : forall l m, parse_message_line l = Some m -> (0 < g_dlc m <= 64)%Z.
Proof.
  intros l m H. unfold parse_message_line in H. cbv zeta in H. destruct (_ <? 5)%nat; [discriminate|].
  destruct (_ || _) eqn:E; [discriminate|]. apply some_inj in H; subst m. cbn [g_dlc].
  apply orb_false_iff in E as [E E2]. apply orb_false_iff in E as [_ E1]. pose proof (Z.mod_pos_bound (atoi (nth 4 (split_each msg_delim l) "")) (2 ^ 8)). unfold uwrap in *. lia.
Qed.

Theorem scan_max_is : forall srt text d, scan srt text = Ok d ->
  (d_maxdlc d = 0%Z \/ exists m, In m (d_msgs d) /\ g_dlc m = d_maxdlc d) /\
  (forall a g b m0, message_lines text = (a ++ g :: b)%list -> b <> [] -> parse_message_line (fst g) = Some m0 ->
     existsb closes (fst g :: snd g) = false -> (g_dlc m0 <= d_maxdlc d)%Z).
Proof.
  intros srt text d H. pose proof (scan_max _ _ _ H) as M. pose proof (scan_messages _ _ _ H) as F. unfold counted in M. split.
  - destruct (max_in (map grp_max (but_last (message_lines text)))) as [E|E]; rewrite <- M in E; [now left|].
    apply in_map_iff in E as (g & E & I). apply but_last_in in I as (a & b & I & _). unfold grp_max in E.
    destruct (parse_message_line (fst g)) as [m0|] eqn:P; [|now left]. destruct (existsb _ _); [now left|]. right.
    assert (K : In g (accepted_lines text)) by (unfold accepted_lines; apply filter_In; rewrite I, P; split; [apply in_elt|reflexivity]).
    clear - F K P E. induction F as [|m g' ms gs X F IH]; [contradiction|]. destruct K as [->|K].
    + destruct X as (m1 & sigs & X). exists m. split; [now left|]. rewrite (mf_dlc _ _ _ _ _ X). pose proof (mf_line _ _ _ _ _ X). congruence.
    + destruct (IH K) as (x & I & J). exists x. split; [now right|auto].
  - intros a g b m0 E N P C. rewrite M. apply max_ge. apply in_map_iff. exists g. split.
    + unfold grp_max. now rewrite P, C.
    + apply but_last_in. exists a, b. auto.
Qed.

(** *** Entries of the second pass *)

(** first pass messages carry no comment, cycle time, value table *)
Record bare (m : message) : Prop := {
  ba_cycle : g_cycle m = 0%Z;
  ba_comment : g_comment m = "";
  ba_roll : g_roll m = None;
  ba_csm : g_csm m = None;
  ba_sigs : forall s, In s (g_sigs m) -> s_comment s = "" /\ s_valdefs s = [] /\ s_valtext s = ""
}.
Lemma sig_of_bare : forall l s, In s (sig_of l) -> s_comment s = "" /\ s_valdefs s = [] /\ s_valtext s = "".
Proof.
  intros l s H. unfold sig_of in H. destruct (is_signal_line l); [|contradiction].
  destruct (parse_signal_line l) as [[x|]| |] eqn:E; try contradiction. destruct H as [<-|[]].
  unfold parse_signal_line in E. cbv zeta in E. destruct (_ <? 2)%nat; [discriminate|]. destruct (_ <? 2)%nat; [discriminate|].
  destruct (_ <? 7)%nat; [discriminate|]. destruct (get_sig_type _ _ _ _ _); try discriminate. cbn [bind] in E.
  destruct (_ =? 3)%nat; [|discriminate]. apply ok_some_inj in E; subst x. repeat split.
Qed.
Lemma pushes_marks : forall l m, g_roll (pushes m l) = g_roll m /\ g_csm (pushes m l) = g_csm m.
Proof.
  induction l as [|s l IH]; intros m; [repeat split|].
  change (pushes m (s :: l)) with (pushes (push_sig m s) l). destruct (IH (push_sig m s)) as (A & B). now rewrite A, B.
Qed.
Lemma info_bare : forall srt ls d m, sorts srt -> parse_message_info srt ls = Ok d -> In m (d_msgs d) -> bare m.
Proof.
  intros srt ls d m SR H I. apply info_messages in H.
  assert (X : exists y, In y (flat_map (grp srt) (snd (groups (map str_trim ls)))) /\ but_trans m y).
  { clear - H I. induction H as [|a b l l' R F IH]; [contradiction|]. destruct I as [->|I].
    - exists b. split; [now left|auto].
    - destruct (IH I) as (y & Y & B). exists y. split; [now right|auto]. }
  destruct X as (y & Y & [t ->]). apply in_flat_map in Y as (g & _ & Y). unfold grp in Y.
  destruct (parse_message_line (fst g)) as [m0|] eqn:P; [|contradiction]. destruct Y as [<-|[]].
  destruct (line_fresh _ _ P) as (L1 & L2 & L3 & L4 & L5 & L6 & L7 & L8).
  destruct (pushes_header (accepted (fst g :: snd g)) m0) as (A & B & C & D & RR & CY & CM).
  destruct (pushes_marks (accepted (fst g :: snd g)) m0) as [RO CS].
  constructor; cbn [with_trans finish with_sigs g_cycle g_comment g_roll g_csm g_sigs]; try congruence.
  intros s S. assert (S1 : In s (g_sigs (pushes m0 (accepted (fst g :: snd g))))) by (eapply Permutation_in; [apply SR|exact S]).
  rewrite pushes_sigs, L1 in S1. cbn [List.app] in S1. unfold accepted in S1. apply in_flat_map in S1 as (l & _ & S1).
  eapply sig_of_bare; eauto.
Qed.

(** a file whose lines are entries, the others ignored by the second pass *)
Record read_entries (srt : sorter) (text : string) (d : dbclist) (es : list entry) : Prop := {
  re_sorts : sorts srt;
  re_scan : scan srt text = Ok d;
  re_lines : getlines text = file_lines es;
  re_ok : forall e, In e es -> entry_ok e;
  re_ids : NoDup (map g_id (d_msgs d));
  re_known : forall e n, In e es -> entry_id e = Some n -> In (Z.of_N n) (map g_id (d_msgs d))
}.

Lemma forall2_ids : forall a b, Forall2 same_message a b -> map g_id a = map g_id b.
Proof. intros a b H. induction H as [|x y a b S _ IH]; auto. cbn. rewrite IH. f_equal. apply S. Qed.

Theorem entries_effects : forall srt text d es, read_entries srt text d es ->
  exists ms, (forall m, In m ms -> bare m) /\ d_msgs d = map (fun m => effects (filter (names (g_id m)) es) m) ms.
Proof.
  intros srt text d es [SR SC LN OK ND KN]. destruct (scan_passes _ _ _ SC) as (d1 & I & E & _).
  exists (d_msgs d1). split; [intros m M; eapply info_bare; eauto|].
  pose proof (forall2_ids _ _ (other_same (d_msgs d1) (getlines text))) as IDS. rewrite <- E in IDS. rewrite IDS in *.
  rewrite E, LN. apply file_effects; auto.
Qed.

Lemma effects_same : forall es m, same_message (effects es m) m.
Proof.
  unfold effects. induction es as [|e es IH]; intros m; [apply same_refl|]. cbn [fold_left].
  eapply same_trans; [apply IH|apply effect_same].
Qed.

(** the entry list split at one entry that names the message *)
Lemma split_effects : forall es a e b i m, es = (a ++ e :: b)%list -> names i e = true ->
  effects (filter (names i) es) m = effects (filter (names i) b) (effect e (effects (filter (names i) a) m)).
Proof.
  intros es a e b i m -> N. rewrite filter_app. cbn [filter]. rewrite N. rewrite effects_app. reflexivity.
Qed.

(** facts preserved by entries of other kinds *)
Lemma effect_cycle : forall e m, (match e with ECycle _ _ => False | _ => True end) -> g_cycle (effect e m) = g_cycle m.
Proof. intros [| |id [s|] t r|] m H; try contradiction; auto. cbn [effect]. apply loop_other. Qed.
Lemma effect_comment : forall e m, (match e with EComment _ None _ _ => False | _ => True end) -> g_comment (effect e m) = g_comment m.
Proof. intros [| |id [s|] t r|] m H; try contradiction; auto. cbn [effect]. apply loop_other. Qed.

Theorem cycle_set : forall srt text d es a id n b m, read_entries srt text d es -> es = (a ++ ECycle id n :: b)%list ->
  (forall k c, In (ECycle k c) b -> plain_id k <> plain_id id) -> In m (d_msgs d) -> g_id m = Z.of_N (plain_id id) ->
  g_cycle m = (Z.of_N n mod 2 ^ 32)%Z.
Proof.
  intros srt text d es a id n b m R E L I G. destruct (entries_effects _ _ _ _ R) as (ms & _ & D). rewrite D in I.
  apply in_map_iff in I as (m0 & <- & _).
  assert (G0 : g_id m0 = Z.of_N (plain_id id)) by (rewrite <- G; symmetry; apply effects_same).
  rewrite (split_effects _ _ _ _ _ _ E) by (unfold names; cbn; lia).
  apply (effects_last (fun m => g_cycle m = (Z.of_N n mod 2 ^ 32)%Z) (fun _ => True)); auto.
  intros x m X N C. rewrite <- C. apply effect_cycle. destruct x; auto. unfold names in N. cbn in N. apply (L _ _ X). lia.
Qed.
Theorem cycle_unset : forall srt text d es m, read_entries srt text d es -> In m (d_msgs d) ->
  (forall k c, In (ECycle k c) es -> Z.of_N (plain_id k) <> g_id m) -> g_cycle m = 0%Z.
Proof.
  intros srt text d es m R I L. destruct (entries_effects _ _ _ _ R) as (ms & BA & D). rewrite D in I.
  apply in_map_iff in I as (m0 & <- & I0). 
  assert (G0 : g_id (effects (filter (names (g_id m0)) es) m0) = g_id m0) by apply effects_same. rewrite G0 in L.
  rewrite <- (ba_cycle _ (BA _ I0)).
  assert (X : forall l m, (forall e, In e l -> match e with ECycle _ _ => False | _ => True end) -> g_cycle (effects l m) = g_cycle m).
  { unfold effects. induction l as [|e l IH]; intros m H; auto. cbn [fold_left]. rewrite IH by (intros; apply H; now right).
    apply effect_cycle, H. now left. }
  apply X. intros e E. apply filter_In in E as [E N]. destruct e; auto. unfold names in N. cbn in N. apply (L _ _ E). lia.
Qed.

Theorem comment_set : forall srt text d es a id t r b m, read_entries srt text d es -> es = (a ++ EComment id None t r :: b)%list ->
  (forall k u v, In (EComment k None u v) b -> plain_id k <> plain_id id) -> In m (d_msgs d) -> g_id m = Z.of_N (plain_id id) ->
  g_comment m = joined t r.
Proof.
  intros srt text d es a id t r b m R E L I G. destruct (entries_effects _ _ _ _ R) as (ms & _ & D). rewrite D in I.
  apply in_map_iff in I as (m0 & <- & _).
  assert (G0 : g_id m0 = Z.of_N (plain_id id)) by (rewrite <- G; symmetry; apply effects_same).
  rewrite (split_effects _ _ _ _ _ _ E) by (unfold names; cbn; lia).
  apply (effects_last (fun m => g_comment m = joined t r) (fun _ => True)); auto.
  intros x m X N C. rewrite <- C. apply effect_comment. destruct x as [| |k [s|] u v|]; auto. unfold names in N. cbn in N. apply (L _ _ _ X). lia.
Qed.

(** signals *)
Definition sig_effect (e : entry) (s : signal) : signal :=
  match e with
  | EVals _ n v => if String.eqb n (s_name s) then sig_values s (val_text v) (val_defs v) else s
  | EComment _ (Some n) t r => commented n (joined t r) s
  | _ => s
  end.
Lemma effect_sigs : forall e m, g_sigs (effect e m) = map (sig_effect e) (g_sigs m).
Proof.
  intros [id n|id s v|id [s|] t r|l] m; cbn [effect]; try (cbn; symmetry; apply map_id).
  - reflexivity.
  - rewrite comment_sigs. reflexivity.
Qed.
Definition sig_effects (es : list entry) (s : signal) : signal := fold_left (fun s e => sig_effect e s) es s.
Lemma effects_sigs : forall es m, g_sigs (effects es m) = map (sig_effects es) (g_sigs m).
Proof.
  unfold effects, sig_effects. induction es as [|e es IH]; intros m; cbn [fold_left]; [symmetry; apply map_id|].
  rewrite IH, effect_sigs, map_map. reflexivity.
Qed.
Lemma sig_effect_name : forall e s, s_name (sig_effect e s) = s_name s.
Proof.
  intros [id n|id x v|id [x|] t r|l] s; cbn [sig_effect]; auto.
  - now destruct (String.eqb x (s_name s)).
  - unfold commented. now destruct (_ || _).
Qed.
Lemma sig_effects_name : forall es s, s_name (sig_effects es s) = s_name s.
Proof. unfold sig_effects. induction es as [|e es IH]; intros s; auto. cbn [fold_left]. rewrite IH. apply sig_effect_name. Qed.

Theorem vals_set : forall srt text d es a id n v b m s, read_entries srt text d es -> es = (a ++ EVals id n v :: b)%list ->
  (forall k w, In (EVals k n w) b -> plain_id k <> plain_id id) -> In m (d_msgs d) -> g_id m = Z.of_N (plain_id id) ->
  In s (g_sigs m) -> s_name s = n -> s_valdefs s = val_defs v.
Proof.
  intros srt text d es a id n v b m s R E L I G SI SN. destruct (entries_effects _ _ _ _ R) as (ms & _ & D). rewrite D in I.
  apply in_map_iff in I as (m0 & <- & _).
  assert (G0 : g_id m0 = Z.of_N (plain_id id)) by (rewrite <- G; symmetry; apply effects_same).
  rewrite (split_effects _ _ _ _ _ _ E) in SI by (unfold names; cbn; lia).
  rewrite effects_sigs, effect_sigs, map_map in SI. apply in_map_iff in SI as (s0 & <- & _).
  rewrite sig_effects_name, sig_effect_name in SN.
  assert (Y : s_valdefs (sig_effect (EVals id n v) s0) = val_defs v) by (cbn [sig_effect]; rewrite SN, String.eqb_refl; reflexivity).
  assert (Z : s_name (sig_effect (EVals id n v) s0) = n) by now rewrite sig_effect_name.
  revert Y Z. generalize (sig_effect (EVals id n v) s0). clear - L G0. unfold sig_effects.
  induction b as [|x b IH]; intros s Y Z; auto. cbn [filter]. destruct (names (g_id m0) x) eqn:N; [|apply IH; auto; intros; eapply L; right; eauto].
  cbn [fold_left]. apply IH; [intros; eapply L; right; eauto| |now rewrite sig_effect_name]. destruct x as [| k q w |k [q|] u w|]; auto.
  - cbn [sig_effect]. destruct (String.eqb_spec q (s_name s)) as [Q|Q]; auto. exfalso. unfold names in N. cbn in N.
    apply (L k w); [left; congruence|]. lia.
  - cbn [sig_effect]. unfold commented. destruct (_ || _); auto.
Qed.

Theorem sig_comment_set : forall srt text d es a id n t r b m s, read_entries srt text d es -> es = (a ++ EComment id (Some n) t r :: b)%list ->
  (forall k q u v, In (EComment k (Some q) u v) b -> plain_id k = plain_id id -> matches q s = false) -> In m (d_msgs d) -> g_id m = Z.of_N (plain_id id) ->
  In s (g_sigs m) -> matches n s = true -> s_comment s = joined t r.
Proof.
  intros srt text d es a id n t r b m s R E L I G SI SN. destruct (entries_effects _ _ _ _ R) as (ms & _ & D). rewrite D in I.
  apply in_map_iff in I as (m0 & <- & _).
  assert (G0 : g_id m0 = Z.of_N (plain_id id)) by (rewrite <- G; symmetry; apply effects_same).
  rewrite (split_effects _ _ _ _ _ _ E) in SI by (unfold names; cbn; lia).
  rewrite effects_sigs, effect_sigs, map_map in SI. apply in_map_iff in SI as (s0 & <- & _).
  unfold matches in *. rewrite sig_effects_name, sig_effect_name in *.
  assert (Y : s_comment (sig_effect (EComment id (Some n) t r) s0) = joined t r) by (cbn [sig_effect]; unfold commented; rewrite SN; reflexivity).
  assert (Z : s_name (sig_effect (EComment id (Some n) t r) s0) = s_name s0) by now rewrite sig_effect_name.
  revert Y Z. generalize (sig_effect (EComment id (Some n) t r) s0). clear - L G0. unfold sig_effects.
  induction b as [|x b IH]; intros s Y Z; auto.
  assert (L' : forall k q u v, In (EComment k (Some q) u v) b -> plain_id k = plain_id id -> String.eqb q (s_name s0) || String.eqb (q ++ "_ro") (s_name s0) = false)
    by (intros; eapply L; [right; eauto|auto]).
  cbn [filter]. destruct (names (g_id m0) x) eqn:N; [|apply IH; auto].
  cbn [fold_left]. apply IH; auto; [|now rewrite sig_effect_name]. destruct x as [| k q w |k [q|] u w|]; auto.
  - cbn [sig_effect]. destruct (String.eqb q (s_name s)); auto.
  - cbn [sig_effect]. unfold commented. unfold names in N. cbn in N. rewrite Z, (L k q u w); auto; [now left|lia].
Qed.

(** *** Transmitters *)

Lemma step_exact : forall srt st raw st1, info_line srt st raw = Ok st1 -> closes (str_trim raw) = false ->
  p_msgs st1 = (p_msgs st ++ flushed srt (p_cur st) (str_trim raw))%list.
Proof.
  intros srt st raw st1 H CL. unfold info_line in H. set (l := str_trim raw) in *. cbv zeta in H.
  destruct (find_version l) as [ver| |]; try discriminate. cbn [bind] in H.
  unfold flushed. rewrite CL, List.app_nil_r. unfold closes in CL.
  destruct (is_message_line l); match type of H with (do cur <- ?x; _) = _ => destruct x as [c| |] end; try discriminate; cbn [bind] in H;
    destruct (parse_multi_trans l) as [txid txs]; cbn [fst] in CL; destruct (txid =? 0)%Z; try discriminate; injection H as <-; cbn [p_msgs].
  - apply add_finish.
  - now rewrite List.app_nil_r.
Qed.

Theorem pass1_exact : forall srt ls st st', fold_res (info_line srt) st ls = Ok st' ->
  (forall l, In l ls -> closes (str_trim l) = false) ->
  add_message srt (p_msgs st') (p_cur st') = (p_msgs st ++ rest_of srt (p_cur st) (map str_trim ls))%list.
Proof.
  intros srt. induction ls as [|raw ls IH]; intros st st' H CL; cbn [fold_res] in H.
  - injection H as <-. rewrite add_finish. unfold rest_of. cbn. now rewrite List.app_nil_r.
  - destruct (info_line srt st raw) as [st1| |] eqn:E; try discriminate. cbn [bind] in H.
    pose proof (step_exact _ _ _ _ E (CL _ (or_introl eq_refl))) as M. apply line_step in E. cbv zeta in E. destruct E as (C & _).
    rewrite (IH _ _ H) by (intros; apply CL; now right). cbn [map]. rewrite M, C, <- List.app_assoc. f_equal.
    rewrite (CL _ (or_introl eq_refl)). set (l := str_trim raw) in *.
    unfold flushed, cur_after. destruct (is_message_line l) eqn:ML.
    + rewrite rest_cons_msg by auto. rewrite <- List.app_assoc. f_equal. pose proof (CL _ (or_introl eq_refl)) as Q. fold l in Q. rewrite Q.
      destruct (parse_message_line l) as [m|]; reflexivity.
    + rewrite rest_cons_other by auto. pose proof (CL _ (or_introl eq_refl)) as Q. fold l in Q. rewrite Q.
      cbn [List.app]. destruct (p_cur st) as [m|]; reflexivity.
Qed.

(** lines that the first pass skips, apart from the version *)
Definition neutral (l : string) : Prop :=
  is_message_line l = false /\ is_signal_line l = false /\ closes l = false.
Lemma neutral_fold : forall srt ls st st', (forall l, In l ls -> neutral (str_trim l)) -> fold_res (info_line srt) st ls = Ok st' ->
  p_msgs st' = p_msgs st /\ p_cur st' = p_cur st.
Proof.
  intros srt. induction ls as [|raw ls IH]; intros st st' N H; cbn [fold_res] in H; [injection H as <-; auto|].
  destruct (info_line srt st raw) as [st1| |] eqn:E; try discriminate. cbn [bind] in H.
  destruct (N _ (or_introl eq_refl)) as (A & B & C). pose proof (step_exact _ _ _ _ E C) as M. apply line_step in E. cbv zeta in E. destruct E as (K & _).
  destruct (IH _ _ (fun l I => N l (or_intror I)) H) as [X Y]. rewrite X, Y, K, M, C. unfold flushed, cur_after, sig_of. rewrite A, B, C.
  rewrite List.app_nil_r. split; auto. destruct (p_cur st) as [m|]; reflexivity.
Qed.

Lemma info_prefix : forall srt ls rest d, parse_message_info srt (ls ++ rest) = Ok d -> exists d0, parse_message_info srt ls = Ok d0.
Proof.
  intros srt ls rest d H. unfold parse_message_info in *. rewrite fold_res_app in H.
  destruct (fold_res _ _ ls) as [st| |]; try discriminate. cbn [bind]. eauto.
Qed.
Lemma info_neutral : forall srt ls rest d d', parse_message_info srt ls = Ok d -> parse_message_info srt (ls ++ rest) = Ok d' ->
  (forall l, In l rest -> neutral (str_trim l)) -> d_msgs d' = d_msgs d.
Proof.
  intros srt ls rest d d' D D' N. unfold parse_message_info in *. rewrite fold_res_app in D'.
  destruct (fold_res _ _ ls) as [st| |]; try discriminate. cbn [bind] in D, D'. injection D as <-. cbn [d_msgs] in *.
  destruct (fold_res _ st _) as [st1| |] eqn:E; try discriminate. cbn [bind] in D'. injection D' as <-. cbn [d_msgs].
  destruct (neutral_fold _ _ _ _ N E) as [-> ->]. reflexivity.
Qed.

Theorem transmitters : forall srt text ls es rest d,
  getlines text = (ls ++ map (fun e => tx_line (fst e) (snd e)) es ++ rest)%list -> scan srt text = Ok d ->
  (forall l, In l ls -> closes (str_trim l) = false) -> (forall l, In l rest -> neutral (str_trim l)) ->
  (forall e, In e es -> tx_ok e) -> NoDup (map g_id (d_msgs d)) ->
  (forall e, In e es -> In (Z.of_N (plain_id (fst e))) (map g_id (d_msgs d))) ->
  Forall2 (fun m g => exists m0, parse_message_line (fst g) = Some m0 /\ g_name m = g_name m0 /\ g_id m = g_id m0 /\ NoDup (g_trans m) /\
    forall x, In x (g_trans m) <-> In x (g_trans m0) \/ exists id nodes, In (id, nodes) es /\ Z.of_N (plain_id id) = g_id m /\ In x nodes)
   (d_msgs d) (filter (fun g => some (parse_message_line (fst g))) (snd (groups (map str_trim ls)))).
Proof.
  intros srt text ls es rest d G SC CL NE TX ND KN. destruct (scan_passes _ _ _ SC) as (d1 & I & E & _). rewrite G in I.
  rewrite List.app_assoc in I. destruct (info_prefix _ _ _ _ I) as (d2 & I2). pose proof (info_neutral _ _ _ _ _ I2 I NE) as E12.
  destruct (info_prefix _ _ _ _ I2) as (d3 & I3).
  pose proof (other_same (d_msgs d1) (getlines text)) as OS. rewrite <- E in OS. rewrite (forall2_ids _ _ OS), E12 in ND, KN.
  assert (IDS : map g_id (d_msgs d3) = map g_id (d_msgs d2)).
  { pose proof (info_messages _ _ _ I2) as A.
    unfold parse_message_info in I2, I3. rewrite fold_res_app in I2. destruct (fold_res _ _ ls) as [st| |]; try discriminate.
    cbn [bind] in I2, I3. injection I3 as <-. cbn [d_msgs]. destruct (fold_res _ st _) as [st1| |] eqn:F; try discriminate.
    cbn [bind] in I2. injection I2 as <-. cbn [d_msgs]. rewrite (tx_fold _ _ _ _ TX F).
    clear. generalize (add_message srt (p_msgs st) (p_cur st)). induction es as [|e es IH]; intros ms; [reflexivity|]. cbn [fold_left].
    rewrite <- IH. unfold update_message. destruct (find_message ms _) as [k|]; [|reflexivity].
    revert k. induction ms as [|m ms IHm]; intros [|k]; cbn [update_nth map]; auto. now rewrite <- IHm. }
  rewrite <- IDS in ND, KN.
  pose proof (tx_lines _ _ _ _ _ I3 TX ND KN I2) as T. rewrite E12, T in OS.
  assert (X : d_msgs d3 = flat_map (grp srt) (snd (groups (map str_trim ls)))).
  { unfold parse_message_info in I3. destruct (fold_res _ _ ls) as [st| |] eqn:F; try discriminate. cbn [bind] in I3. injection I3 as <-.
    cbn [d_msgs]. rewrite (pass1_exact _ _ _ _ F CL). reflexivity. }
  rewrite X in OS. pose proof (filter_grp srt (snd (groups (map str_trim ls)))) as FG.
  set (fs := filter _ _) in *. clearbody fs. set (gs := flat_map _ _) in *. clearbody gs. clear - OS FG TX.
  revert OS. generalize (d_msgs d). induction FG as [|m g gs fs R F IH]; intros dm OS; cbn [map] in OS; inversion OS; subst; constructor; [|now apply IH].
  clear IH OS. destruct R as (m0 & P & ->). exists m0. split; [exact P|].
  destruct (line_fresh _ _ P) as (L1 & L2 & _).
  destruct (pushes_header (accepted (fst g :: snd g)) m0) as (A & B & C & D & RR & _ & _).
  match goal with K : same_message _ _ |- _ => destruct K as [S1 S2 S3 S4 S5 _ _ _ _] end. cbn [with_trans finish with_sigs g_trans g_id g_name] in *.
  rewrite S5, S3, S1, A, B, D. split; [reflexivity|]. split; [reflexivity|]. split.
  - apply union_nodup. unfold parse_message_line in P. cbv zeta in P. destruct (_ <? 5)%nat; [discriminate|]. destruct (_ || _); [discriminate|].
    apply some_inj in P; subst m0. cbn [g_trans]. destruct (_ <? _)%nat; [constructor; [intros []|constructor]|constructor].
  - intros z. rewrite union_in. unfold nodes_for. rewrite in_flat_map. apply or_iff_compat_l.
    split; [intros ([id nodes] & E & J)|intros (id & nodes & E & J & K)].
    + cbn [fst snd] in J. destruct (_ =? _)%Z eqn:Q; [|contradiction]. exists id, nodes. repeat split; auto; lia.
    + exists (id, nodes). split; auto. cbn [fst snd]. now replace (_ =? _)%Z with true by lia.
Qed.
