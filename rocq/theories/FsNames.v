(** The scanner never yields a node name with a separator. *)

From Coq Require Import ZArith NArith List String Ascii Bool Lia ZifyBool Permutation.
From Verif Require Import Base Types Formatter LineParser Scanner Options FsModel App DriverSpec LexLemmas ScanSpec ScanPass1 ScanPass2 ScanThms SigTypes FsSpec.
Import ListNotations.
Open Scope string_scope.

Definition noslash (c : ascii) : bool := negb (Ascii.eqb c "/").

Lemma each_free : forall p s acc seen t, (forall c, p c = false -> noslash c = true) -> all_chars noslash acc = true ->
  In t (split_each_from p acc seen s) -> all_chars noslash t = true.
Proof.
  intros p s. induction s as [|c r IH]; intros acc seen t P A; cbn [split_each_from].
  - destruct (seen && _); [intros []|]. intros [<-|[]]. now rewrite all_rev.
  - destruct (p c) eqn:E.
    + intros [<-|H]; [now rewrite all_rev|]. eapply IH; [exact P| |exact H]. reflexivity.
    + intros H. eapply IH; [exact P| |exact H]. cbn [all_chars]. now rewrite (P c E), A.
Qed.
Lemma runs_free : forall p s acc d t, (forall c, p c = false -> noslash c = true) -> all_chars noslash acc = true ->
  In t (split_runs_from p acc d s) -> all_chars noslash t = true.
Proof.
  intros p s. induction s as [|c r IH]; intros acc d t P A; cbn [split_runs_from].
  - destruct d; [intros []|]. intros [<-|[]]. now rewrite all_rev.
  - destruct (p c) eqn:E.
    + destruct d; [intros H; eapply IH; [exact P| |exact H]; reflexivity|]. intros [<-|H]; [now rewrite all_rev|]. eapply IH; [exact P| |exact H]. reflexivity.
    + intros H. eapply IH; [exact P| |exact H]. cbn [all_chars]. now rewrite (P c E), A.
Qed.
Ltac by_cases_of_char := let c := fresh "c" in let E := fresh in intros c; destruct (noslash c) eqn:E; [reflexivity|];
  assert (c = "/"%char) by (unfold noslash in E; apply negb_false_iff in E; now apply Ascii.eqb_eq in E); subst c; vm_compute; congruence.
Lemma msg_slash : forall c, msg_delim c = false -> noslash c = true. Proof. by_cases_of_char. Qed.
Lemma trans_slash : forall c, trans_delim c = false -> noslash c = true. Proof. by_cases_of_char. Qed.
Lemma recv_slash : forall c, recv_delim c = false -> noslash c = true. Proof. by_cases_of_char. Qed.

Definition free_names (l : list string) : Prop := forall n, In n l -> all_chars noslash n = true.
(** an unfinished message: receivers still sit in the signals *)
Definition free_msg (m : message) : Prop := free_names (g_trans m) /\ free_names (g_recs m) /\ forall s, In s (g_sigs m) -> free_names (s_recs s).

Lemma some_eq : forall A (a b : A), Some a = Some b -> a = b.
Proof. intros A a b E. congruence. Qed.
Lemma message_free : forall line m, parse_message_line line = Some m -> free_msg m.
Proof.
  intros line m. unfold parse_message_line. cbv zeta. destruct (_ <? 5)%nat; [discriminate|]. destruct (negb _ || _ || _); [discriminate|].
  intros E. apply some_eq in E. subst m. unfold free_msg. cbn [g_trans g_recs g_sigs]. split; [|split; [intros n []|intros s []]].
  destruct (1 <? _)%nat; [|intros n []]. intros n [<-|[]].
  destruct (nth_in_or_default 5 (split_each msg_delim line) "") as [H| ->]; [|reflexivity]. eapply each_free; [exact msg_slash| |exact H]. reflexivity.
Qed.
Lemma signal_free : forall line s, parse_signal_line line = Ok (Some s) -> free_names (s_recs s).
Proof.
  intros line sg H. unfold parse_signal_line in H. cbv zeta in H.
  destruct (_ <? 2)%nat; [discriminate|]. destruct (_ <? 2)%nat; [discriminate|]. destruct (_ <? 7)%nat; [discriminate|].
  apply bind_inv in H as ((ro & ph) & T & H). destruct (_ =? 3)%nat; [|discriminate].
  apply ok_some_inj in H. subst sg. cbn [s_recs]. intros n N. eapply runs_free; [exact recv_slash| |exact N]. reflexivity.
Qed.
Lemma trans_free : forall line id l, parse_multi_trans line = (id, l) -> free_names l.
Proof.
  intros line id l. unfold parse_multi_trans. cbv zeta. destruct (_ && _).
  - intros E. injection E as _ <-. destruct (_ =? 0)%Z; [intros n []|]. intros n H.
    assert (I : In n (split_runs trans_delim line)) by (rewrite <- (firstn_skipn 2 (split_runs trans_delim line)); apply in_or_app; now right).
    eapply runs_free; [exact trans_slash| |exact I]. reflexivity.
  - intros E. injection E as _ <-. intros n [].
Qed.

Lemma nth_upd_free : forall ms i f, (forall m, free_msg m -> free_msg (f m)) -> Forall free_msg ms -> Forall free_msg (update_nth i f ms).
Proof.
  intros ms. induction ms as [|m r IH]; intros i f F H; destruct i; cbn [update_nth]; auto; inversion H; subst; constructor; auto.
Qed.
Lemma upd_free : forall ms id f, (forall m, free_msg m -> free_msg (f m)) -> Forall free_msg ms -> Forall free_msg (update_message ms id f).
Proof. intros ms id f F H. unfold update_message. destruct (find_message ms id); auto. now apply nth_upd_free. Qed.
Lemma union_free : forall xs l, free_names xs -> free_names l -> free_names (fold_left add_new xs l).
Proof. intros xs l A B n N. apply union_in in N as [N|N]; auto. Qed.
Lemma add_free : forall srt ms cur, sorts srt -> Forall free_msg ms -> (forall m, cur = Some m -> free_msg m) -> Forall free_msg (add_message srt ms cur).
Proof.
  intros srt ms [m|] SR H C; [|exact H]. cbn [add_message]. apply Forall_app. split; [exact H|]. constructor; [|constructor].
  destruct (C m eq_refl) as (T & R & S). 
  assert (S' : forall s, In s (srt signal s_start (g_sigs m)) -> free_names (s_recs s)) by (intros s I; apply S; eapply Permutation_in; [apply SR|exact I]).
  split; [exact T|]. split; [|exact S']. apply union_free; [|exact R]. intros n N. apply in_flat_map in N as (s & I & N). exact (S' s I n N).
Qed.
Lemma push_free : forall m s, free_msg m -> free_names (s_recs s) -> free_msg (push_sig m s).
Proof. intros m s (T & R & S) F. split; [exact T|]. split; [exact R|]. cbn [push_sig g_sigs]. intros x I. apply in_app_or in I as [I|[<-|[]]]; auto. Qed.

Definition free_state (st : pass1) : Prop := Forall free_msg (p_msgs st) /\ forall m, p_cur st = Some m -> free_msg m.

Lemma line_free : forall srt st raw st', sorts srt -> free_state st -> info_line srt st raw = Ok st' -> free_state st'.
Proof.
  intros srt st raw st' SR (M & C) H. unfold info_line in H. cbv zeta in H. apply bind_inv in H as (ver & _ & H).
  set (line := str_trim raw) in *.
  assert (X : forall ms mx cur, (if is_message_line line then (add_message srt (p_msgs st) (p_cur st),
     match p_cur st with Some m => if (p_max st <? g_dlc m)%Z then g_dlc m else p_max st | None => p_max st end, parse_message_line line) else (p_msgs st, p_max st, p_cur st)) = (ms, mx, cur) ->
     Forall free_msg ms /\ forall m, cur = Some m -> free_msg m).
  { intros ms mx cur. destruct (is_message_line line); intros E; injection E as <- <- <-.
    - split; [now apply add_free|]. intros m. apply message_free.
    - now split. }
  destruct (if is_message_line line then _ else _) as ((ms & mx) & cur) eqn:E. destruct (X _ _ _ eq_refl) as (M' & C'). clear X E.
  apply bind_inv in H as (cur' & E & H).
  assert (C'' : forall m, cur' = Some m -> free_msg m).
  { destruct cur as [m|]; [|injection E as <-; discriminate]. destruct (is_signal_line line); [|injection E as <-; exact C'].
    apply bind_inv in E as (s & P & E). injection E as <-. intros m' E. destruct s as [s|]; injection E as <-; [|auto]. apply push_free; [auto|]. now apply (signal_free line). }
  destruct (parse_multi_trans line) as (id & txs) eqn:T. apply trans_free in T.
  destruct (id =? 0)%Z; injection H as <-; split; cbn [p_msgs p_cur]; auto; [|discriminate].
  apply upd_free; [|now apply add_free]. intros m (A & B & D). split; [|split; [exact B|exact D]]. now apply union_free.
Qed.
Lemma fold_free : forall srt ls st st', sorts srt -> free_state st -> fold_res (info_line srt) st ls = Ok st' -> free_state st'.
Proof.
  intros srt ls. induction ls as [|l r IH]; intros st st' SR F H; cbn [fold_res] in H; [now injection H as <-|].
  apply bind_inv in H as (s & E & H). eapply IH; [exact SR| |exact H]. eapply line_free; eauto.
Qed.

Lemma same_nodes : forall ms' ms n, Forall2 same_message ms' ms -> (exists m, In m ms' /\ (In n (g_trans m) \/ In n (g_recs m))) ->
  exists m, In m ms /\ (In n (g_trans m) \/ In n (g_recs m)).
Proof.
  intros ms' ms n H. induction H as [|a b la lb S F IH]; intros (m & [] & N).
  - subst m. exists b. split; [now left|]. destruct S. intuition congruence.
  - destruct IH as (x & I & X); [eauto|]. exists x. split; [now right|exact X].
Qed.

Theorem scan_free : forall srt text d n, sorts srt -> scan srt text = Ok d -> is_node d n -> no_slash n.
Proof.
  intros srt text d n SR H (m & I & N). unfold scan in H. cbv zeta in H. apply bind_inv in H as (d0 & H0 & H). injection H as <-. cbn [d_msgs] in I.
  unfold parse_message_info in H0. apply bind_inv in H0 as (st & F & H0). injection H0 as <-. cbn [d_msgs] in I.
  apply fold_free in F as (M & C); [|exact SR|split; [constructor|discriminate]].
  destruct (same_nodes _ _ n (other_same _ _) (ex_intro _ m (conj I N))) as (x & J & X). clear I N.
  pose proof (add_free srt _ _ SR M C) as A. rewrite Forall_forall in A. destruct (A x J) as (T & R & _). destruct X as [X|X]; [exact (T n X)|exact (R n X)].
Qed.
