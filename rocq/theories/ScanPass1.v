(** The first pass over a file: messages, signals, transmitters, version, maximal length. *)

From Coq Require Import ZArith NArith List String Ascii Bool Lia ZifyBool Permutation.
From Verif Require Import Base Dbl CSyntax Types Formatter MainGen LineParser Scanner LexLemmas ScanSpec ScanLemmas ScanLines.
Import ListNotations.
Open Scope string_scope.

(** the signal a line declares *)
Definition sig_of (l : string) : list signal :=
  if is_signal_line l then match parse_signal_line l with Ok (Some s) => [s] | _ => [] end else [].
(** a recognised list of transmitters *)
Definition closes (l : string) : bool := negb (fst (parse_multi_trans l) =? 0)%Z.
Definition accepted (ls : list string) : list signal := flat_map sig_of (upto closes ls).

Definition pushes (m : message) (l : list signal) : message := fold_left push_sig l m.
Definition finish (srt : sorter) (m : message) : message :=
  with_sigs m (srt signal s_start (g_sigs m)) (fold_left add_new (flat_map s_recs (srt signal s_start (g_sigs m))) (g_recs m)).
Definition opt {A} (o : option A) : list A := match o with Some x => [x] | None => [] end.
Definition grp (srt : sorter) (g : string * list string) : list message :=
  opt (option_map (fun m => finish srt (pushes m (accepted (fst g :: snd g)))) (parse_message_line (fst g))).

(** equal up to transmitters *)
Definition but_trans (a b : message) : Prop := exists t, a = with_trans b t.
Lemma but_refl : forall a, but_trans a a.
Proof. intros a. exists (g_trans a). now destruct a. Qed.
Lemma but_trans_trans : forall a b c, but_trans a b -> but_trans b c -> but_trans a c.
Proof. intros a b c [t ->] [u ->]. exists t. now destruct c. Qed.

Lemma forall2_refl : forall A (R : A -> A -> Prop) l, (forall x, R x x) -> Forall2 R l l.
Proof. induction l; auto. Qed.
Lemma forall2_trans : forall A (R : A -> A -> Prop) l1 l2 l3, (forall x y z, R x y -> R y z -> R x z) ->
  Forall2 R l1 l2 -> Forall2 R l2 l3 -> Forall2 R l1 l3.
Proof.
  intros A R l1 l2 l3 T H. revert l3. induction H; intros l3 K; inversion K; subst; constructor; eauto.
Qed.
Lemma forall2_update : forall A (R : A -> A -> Prop) n f l, (forall x, R x x) -> (forall x, R (f x) x) -> Forall2 R (update_nth n f l) l.
Proof. intros A R n f l X F. revert n. induction l as [|a l IH]; intros [|n]; cbn [update_nth]; constructor; auto. now apply forall2_refl. Qed.

Lemma update_but : forall ms id f, (forall m, but_trans (f m) m) -> Forall2 but_trans (update_message ms id f) ms.
Proof.
  intros. unfold update_message. destruct (find_message ms id); [apply forall2_update|apply forall2_refl]; auto using but_refl.
Qed.

Lemma add_finish : forall srt ms cur, add_message srt ms cur = (ms ++ opt (option_map (finish srt) cur))%list.
Proof. intros srt ms [m|]; cbn; [reflexivity|now rewrite List.app_nil_r]. Qed.

Definition pass1_lines (ls : list string) : list string := map str_trim ls.

(** messages found from a state on *)
Definition rest_of (srt : sorter) (cur : option message) (ls : list string) : list message :=
  (opt (option_map (fun m => finish srt (pushes m (accepted (fst (groups ls))))) cur) ++ flat_map (grp srt) (snd (groups ls)))%list.

Lemma rest_cons_msg : forall srt cur l r, is_message_line l = true ->
  rest_of srt cur (l :: r)
  = (opt (option_map (finish srt) cur)
     ++ (match parse_message_line l with
         | Some m => if closes l then finish srt (pushes m (sig_of l)) :: rest_of srt None r
                     else rest_of srt (Some (pushes m (sig_of l))) r
         | None => rest_of srt None r
         end))%list.
Proof.
  intros srt cur l r M. unfold rest_of. cbn [groups]. destruct (groups r) as [pre gs].
  change (String.prefix "BO_ " l) with (is_message_line l). rewrite M. cbn [fst snd].
  replace (accepted []) with (@nil signal) by reflexivity.
  assert (P0 : forall m, pushes m [] = m) by reflexivity.
  destruct cur as [c|]; cbn [option_map opt flat_map List.app]; rewrite ?P0.
  - f_equal. unfold grp at 1. cbn [fst snd]. destruct (parse_message_line l) as [m|]; cbn [option_map opt List.app]; auto.
    unfold accepted at 1. cbn [upto flat_map].
    destruct (closes l); cbn [flat_map].
    + now rewrite List.app_nil_r.
    + cbn [option_map opt List.app]. unfold pushes. now rewrite fold_left_app.
  - unfold grp at 1. cbn [fst snd]. destruct (parse_message_line l) as [m|]; cbn [option_map opt List.app]; auto.
    unfold accepted at 1. cbn [upto flat_map].
    destruct (closes l); cbn [flat_map].
    + now rewrite List.app_nil_r.
    + unfold pushes. now rewrite fold_left_app.
Qed.

Lemma rest_cons_other : forall srt cur l r, is_message_line l = false ->
  rest_of srt cur (l :: r)
  = match cur with
    | Some m => if closes l then finish srt (pushes m (sig_of l)) :: rest_of srt None r
                else rest_of srt (Some (pushes m (sig_of l))) r
    | None => rest_of srt None r
    end.
Proof.
  intros srt cur l r M. unfold rest_of. cbn [groups]. destruct (groups r) as [pre gs].
  change (String.prefix "BO_ " l) with (is_message_line l). rewrite M. cbn [fst snd].
  destruct cur as [m|]; cbn [option_map opt List.app]; auto.
  unfold accepted at 1. cbn [upto flat_map]. destruct (closes l); cbn [flat_map opt option_map List.app].
  - now rewrite List.app_nil_r.
  - unfold pushes. now rewrite fold_left_app.
Qed.

(** one line *)
Definition cur_after (cur : option message) (l : string) : option message :=
  let c := if is_message_line l then parse_message_line l else cur in
  option_map (fun m => pushes m (sig_of l)) c.
Definition flushed (srt : sorter) (cur : option message) (l : string) : list message :=
  ((if is_message_line l then opt (option_map (finish srt) cur) else [])
     ++ (if closes l then opt (option_map (finish srt) (cur_after cur l)) else []))%list.

Definition raised (mx : Z) (cur : option message) (l : string) : Z :=
  if is_message_line l then match cur with Some m => Z.max mx (g_dlc m) | None => mx end else mx.

Lemma line_step : forall srt st raw st1, info_line srt st raw = Ok st1 ->
  let l := str_trim raw in
  p_cur st1 = (if closes l then None else cur_after (p_cur st) l) /\
  Forall2 but_trans (p_msgs st1) (p_msgs st ++ flushed srt (p_cur st) l) /\
  p_max st1 = raised (p_max st) (p_cur st) l /\
  exists v, find_version l = Ok v /\ (p_hi st1, p_low st1) = match v with Some p => p | None => (p_hi st, p_low st) end.
Proof.
  intros srt st raw st1 H l. unfold info_line in H. fold l in H. cbv zeta in H.
  destruct (find_version l) as [ver| |] eqn:V; try discriminate. cbn [bind] in H.
  assert (VV : exists v, Ok ver = Ok v /\
     (match ver with Some (h, _) => h | None => p_hi st end, match ver with Some (_, x) => x | None => p_low st end)
     = match v with Some p => p | None => (p_hi st, p_low st) end).
  { exists ver. split; auto. destruct ver as [[h x]|]; reflexivity. }
  set (base := if is_message_line l
               then (add_message srt (p_msgs st) (p_cur st),
                     match p_cur st with Some m => if (p_max st <? g_dlc m)%Z then g_dlc m else p_max st | None => p_max st end,
                     parse_message_line l)
               else (p_msgs st, p_max st, p_cur st)) in H.
  set (ms := (p_msgs st ++ (if is_message_line l then opt (option_map (finish srt) (p_cur st)) else []))%list).
  set (c0 := if is_message_line l then parse_message_line l else p_cur st).
  assert (B : base = (ms, raised (p_max st) (p_cur st) l, c0)).
  { unfold base, ms, c0, raised. destruct (is_message_line l).
    - rewrite add_finish. f_equal. f_equal. destruct (p_cur st) as [m|]; [|reflexivity]. destruct (p_max st <? g_dlc m)%Z eqn:Q; lia.
    - now rewrite List.app_nil_r. }
  rewrite B in H. clearbody base. clear B base.
  assert (C : exists c1, (match c0 with
                | Some m => if is_signal_line l then do s <- parse_signal_line l;
                              Ok (Some (match s with Some s => push_sig m s | None => m end)) else Ok c0
                | None => Ok c0 end) = Ok c1 /\ c1 = cur_after (p_cur st) l).
  { unfold cur_after. fold c0. destruct c0 as [m|] eqn:E0.
    - unfold sig_of. destruct (is_signal_line l).
      + destruct (parse_signal_line l) as [[s|]| |] eqn:PS; cbn [bind] in *; try discriminate; eexists; split; reflexivity.
      + eexists; split; reflexivity.
    - eexists; split; reflexivity. }
  destruct C as (c1 & C1 & C2). rewrite C1 in H. cbn [bind] in H. unfold closes, flushed. unfold closes.
  destruct (parse_multi_trans l) as [txid txs]. cbn [fst]. destruct (txid =? 0)%Z eqn:Z0; injection H as <-; cbn [p_cur p_msgs p_max p_hi p_low negb].
  - split; [exact C2|]. split; [|split; [reflexivity|exact VV]].
    rewrite List.app_nil_r. unfold ms. destruct (is_message_line l); rewrite ?List.app_nil_r; apply forall2_refl, but_refl.
  - split; [reflexivity|]. split; [|split; [reflexivity|exact VV]].
    eapply forall2_trans; [apply but_trans_trans|apply update_but; intros m; eexists; reflexivity|].
    rewrite add_finish, <- C2. unfold ms. rewrite <- List.app_assoc. apply forall2_refl, but_refl.
Qed.

Theorem pass1_messages : forall srt ls st st', fold_res (info_line srt) st ls = Ok st' ->
  Forall2 but_trans (add_message srt (p_msgs st') (p_cur st')) (p_msgs st ++ rest_of srt (p_cur st) (map str_trim ls)).
Proof.
  intros srt. induction ls as [|raw ls IH]; intros st st' H; cbn [fold_res] in H.
  - injection H as <-. rewrite add_finish. unfold rest_of. cbn. rewrite List.app_nil_r. apply forall2_refl, but_refl.
  - destruct (info_line srt st raw) as [st1| |] eqn:E; try discriminate. cbn [bind] in H.
    apply line_step in E. cbv zeta in E. set (l := str_trim raw) in *. destruct E as (C & M & _).
    eapply forall2_trans; [apply but_trans_trans|apply IH; exact H|].
    cbn [map]. fold l.
    assert (X : rest_of srt (p_cur st) (l :: map str_trim ls) = (flushed srt (p_cur st) l ++ rest_of srt (p_cur st1) (map str_trim ls))%list).
    { rewrite C. unfold flushed, cur_after. destruct (is_message_line l) eqn:ML.
      - rewrite rest_cons_msg by auto. rewrite <- List.app_assoc. f_equal.
        destruct (parse_message_line l) as [m|]; destruct (closes l); reflexivity.
      - rewrite rest_cons_other by auto. cbn [List.app]. destruct (p_cur st) as [m|]; destruct (closes l); reflexivity. }
    rewrite X, List.app_assoc. apply Forall2_app; [exact M|]. apply forall2_refl, but_refl.
Qed.

(** ** Maximal length *)

Definition grp_max (g : string * list string) : Z :=
  match parse_message_line (fst g) with
  | Some m => if existsb closes (fst g :: snd g) then 0 else g_dlc m
  | None => 0
  end.
Fixpoint but_last {A} (l : list A) : list A :=
  match l with
  | [] => []
  | [_] => []
  | x :: r => x :: but_last r
  end.
Definition counted (gs : list (string * list string)) : Z := fold_right Z.max 0%Z (map grp_max (but_last gs)).
Definition cur_max (cur : option message) (pre : list string) (gs : list (string * list string)) : Z :=
  match cur, gs with
  | Some m, _ :: _ => if existsb closes pre then 0 else g_dlc m
  | _, _ => 0
  end.

Lemma counted_cons : forall g gs, counted (g :: gs) = match gs with [] => 0 | _ => Z.max (grp_max g) (counted gs) end%Z.
Proof. intros g [|h gs]; reflexivity. Qed.
Lemma counted_nonneg : forall gs, (0 <= counted gs)%Z.
Proof. intros gs. unfold counted. induction (map grp_max (but_last gs)); cbn [fold_right]; lia. Qed.

Lemma pushes_dlc : forall l m, g_dlc (pushes m l) = g_dlc m.
Proof. induction l as [|s l IH]; intros m; [reflexivity|]. change (pushes m (s :: l)) with (pushes (push_sig m s) l). now rewrite IH. Qed.

Theorem pass1_max : forall srt ls st st', fold_res (info_line srt) st ls = Ok st' -> (0 <= p_max st)%Z ->
  let '(pre, gs) := groups (map str_trim ls) in
  p_max st' = Z.max (p_max st) (Z.max (cur_max (p_cur st) pre gs) (counted gs)).
Proof.
  intros srt. induction ls as [|raw ls IH]; intros st st' H P; cbn [fold_res] in H.
  - injection H as <-. cbn. unfold cur_max. destruct (p_cur st); lia.
  - destruct (info_line srt st raw) as [st1| |] eqn:E; try discriminate. cbn [bind] in H.
    apply line_step in E. cbv zeta in E. set (l := str_trim raw) in *. destruct E as (C & _ & R & _).
    assert (P1 : (0 <= p_max st1)%Z).
    { rewrite R. unfold raised. destruct (is_message_line l); [|lia]. destruct (p_cur st); lia. }
    specialize (IH st1 st' H P1). cbn [map groups]. fold l. destruct (groups (map str_trim ls)) as [pre gs].
    change (String.prefix "BO_ " l) with (is_message_line l).
    rewrite IH, R, C. clear IH. unfold raised, cur_after. destruct (is_message_line l) eqn:ML.
    + rewrite counted_cons. unfold grp_max. cbn [fst snd existsb].
      pose proof (counted_nonneg gs). 
      destruct (parse_message_line l) as [m|]; cbn [option_map]; destruct (closes l); cbn [orb];
        unfold cur_max at 1; destruct gs as [|g gs]; rewrite ?pushes_dlc; cbn [cur_max existsb];
        destruct (p_cur st) as [c|]; cbn [cur_max existsb]; unfold counted in *; cbn [but_last map fold_right] in *;
        try destruct (existsb closes pre); lia.
    + destruct (closes l) eqn:CL; destruct (p_cur st) as [c|]; cbn [option_map cur_max existsb]; rewrite ?CL; cbn [orb];
        destruct gs; rewrite ?pushes_dlc; lia.
Qed.

(** ** Version *)

Theorem pass1_version : forall srt ls st st', fold_res (info_line srt) st ls = Ok st' ->
  exists vs, Forall2 (fun raw v => find_version (str_trim raw) = Ok v) ls vs /\
    (p_hi st', p_low st') = fold_left (fun a v => match v with Some p => p | None => a end) vs (p_hi st, p_low st).
Proof.
  intros srt. induction ls as [|raw ls IH]; intros st st' H; cbn [fold_res] in H.
  - injection H as <-. exists []. split; [constructor|reflexivity].
  - destruct (info_line srt st raw) as [st1| |] eqn:E; try discriminate. cbn [bind] in H.
    apply line_step in E. cbv zeta in E. destruct E as (_ & _ & _ & v & V & W).
    destruct (IH _ _ H) as (vs & F & G). exists (v :: vs). split; [constructor; auto|]. cbn [fold_left]. rewrite G, W. reflexivity.
Qed.

Lemma fold_none : forall vs (a : Z * Z), (forall v, In v vs -> v = None) ->
  fold_left (fun a v => match v with Some p => p | None => a end) vs a = a.
Proof.
  induction vs as [|v vs IH]; intros a H; auto. cbn [fold_left]. rewrite (H v) by (left; reflexivity). apply IH.
  intros w W. apply H. now right.
Qed.

Theorem version_last : forall srt ls d, parse_message_info srt ls = Ok d ->
  (forall l1 l2 raw a b, ls = (l1 ++ raw :: l2)%list -> str_trim raw = version_line a b -> (Z.of_N a < 2 ^ 64)%Z -> (Z.of_N b < 2 ^ 64)%Z ->
     (forall x, In x l2 -> begins_ci "version" (str_trim x) = false) ->
     d_verhi d = (Z.of_N a mod 2 ^ 32)%Z /\ d_verlow d = (Z.of_N b mod 2 ^ 32)%Z) /\
  ((forall x, In x ls -> begins_ci "version" (str_trim x) = false) -> d_verhi d = 0%Z /\ d_verlow d = 0%Z).
Proof.
  intros srt ls d H. unfold parse_message_info in H.
  destruct (fold_res _ _ _) as [st| |] eqn:E; try discriminate. cbn [bind] in H. injection H as <-. cbn [d_verhi d_verlow].
  destruct (pass1_version _ _ _ _ E) as (vs & F & G). cbn [p_hi p_low] in G.
  assert (N : forall l vs', Forall2 (fun raw v => find_version (str_trim raw) = Ok v) l vs' ->
            (forall x, In x l -> begins_ci "version" (str_trim x) = false) -> forall v, In v vs' -> v = None).
  { intros l vs' K. induction K as [|x v l vs' X K IHK]; intros B w W; [contradiction|].
    destruct W as [<-|W]; [|apply IHK; auto; intros; apply B; now right].
    eapply no_version; [|exact X]. apply B. now left. }
  split.
  - intros l1 l2 raw a b -> V A B U. apply Forall2_app_inv_l in F. destruct F as (v1 & v2 & F1 & F2 & ->).
    inversion F2 as [|x v l vs2 X F3 Q]; subst. rewrite V, find_printed in X by auto. injection X as <-.
    rewrite fold_left_app in G. cbn [fold_left] in G. rewrite fold_none in G by (eapply N; eauto).
    injection G as -> ->. auto.
  - intros U. rewrite fold_none in G by (eapply N; eauto). injection G as -> ->. auto.
Qed.

(** ** Properties of a finished message *)

Lemma pushes_sigs : forall l m, g_sigs (pushes m l) = (g_sigs m ++ l)%list.
Proof.
  induction l as [|s l IH]; intros m; cbn; [now rewrite List.app_nil_r|].
  change (fold_left push_sig l (push_sig m s)) with (pushes (push_sig m s) l). rewrite IH. cbn. now rewrite <- List.app_assoc.
Qed.
Lemma pushes_header : forall l m, g_name (pushes m l) = g_name m /\ g_id (pushes m l) = g_id m /\ g_ext (pushes m l) = g_ext m /\
  g_trans (pushes m l) = g_trans m /\ g_recs (pushes m l) = g_recs m /\ g_cycle (pushes m l) = g_cycle m /\
  g_comment (pushes m l) = g_comment m.
Proof.
  induction l as [|s l IH]; intros m; [repeat split|].
  change (pushes m (s :: l)) with (pushes (push_sig m s) l). destruct (IH (push_sig m s)) as (A & B & C & D & E & F & G).
  rewrite A, B, C, D, E, F, G. repeat split.
Qed.
Lemma pushes_notempty : forall l m, g_notempty (pushes m l) = g_notempty m || negb (match l with [] => true | _ => false end).
Proof.
  induction l as [|s l IH]; intros m; [cbn; now rewrite orb_false_r|].
  change (pushes m (s :: l)) with (pushes (push_sig m s) l). rewrite IH. cbn. now rewrite orb_true_r.
Qed.

Lemma smem_In : forall x l, smem x l = true <-> In x l.
Proof.
  intros x l. unfold smem. rewrite existsb_exists. split.
  - intros (y & I & E). apply String.eqb_eq in E. now subst.
  - intros I. exists x. split; auto. apply String.eqb_refl.
Qed.
Lemma add_new_in : forall l x y, In y (add_new l x) <-> In y l \/ y = x.
Proof.
  intros l x y. unfold add_new. destruct (smem x l) eqn:S.
  - apply smem_In in S. split; auto. intros [I| ->]; auto.
  - rewrite in_app_iff. cbn. split; intros [I|I]; auto. destruct I as [<-|[]]; auto.
Qed.
Lemma add_new_nodup : forall l x, NoDup l -> NoDup (add_new l x).
Proof.
  intros l x N. unfold add_new. destruct (smem x l) eqn:S; auto.
  assert (~ In x l) by (intros I; apply smem_In in I; congruence).
  apply (Permutation_NoDup (l := x :: l)); [apply Permutation_cons_append|]. now constructor.
Qed.
Lemma union_in : forall xs l y, In y (fold_left add_new xs l) <-> In y l \/ In y xs.
Proof.
  induction xs as [|x xs IH]; intros l y; cbn [fold_left]; [cbn; tauto|]. rewrite IH, add_new_in. cbn. split; intros; intuition.
Qed.
Lemma union_nodup : forall xs l, NoDup l -> NoDup (fold_left add_new xs l).
Proof. induction xs as [|x xs IH]; intros l N; cbn [fold_left]; auto. apply IH. now apply add_new_nodup. Qed.

(** ** Transmitters *)

Lemma find_known : forall ms id, In id (map g_id ms) -> exists i m, find_message ms id = Some i /\ nth_error ms i = Some m /\ g_id m = id.
Proof.
  induction ms as [|m ms IH]; intros id H; [contradiction|]. cbn [find_message].
  destruct ms as [|m2 ms].
  - cbn in H. destruct H as [H|[]]. exists 0%nat, m. auto.
  - destruct (g_id m =? id)%Z eqn:E.
    + exists 0%nat, m. repeat split. lia.
    + destruct H as [H|H]; [lia|]. destruct (IH id H) as (i & m' & A & B & C). rewrite A. exists (S i), m'. auto.
Qed.

Lemma update_known : forall ms id f, NoDup (map g_id ms) -> In id (map g_id ms) ->
  update_message ms id f = map (fun m => if (g_id m =? id)%Z then f m else m) ms.
Proof.
  intros ms id f N H. unfold update_message. destruct (find_known ms id H) as (i & m & -> & B & C).
  revert i B. clear H. induction ms as [|a ms IH]; intros i B; [now destruct i|].
  cbn [map] in N. inversion N as [|x l X Y]; subst. destruct i as [|i]; cbn [update_nth map nth_error] in *.
  - injection B as ->. rewrite Z.eqb_refl. f_equal. rewrite <- (map_id ms) at 1. apply map_ext_in. intros b I.
    replace (g_id b =? g_id m)%Z with false; [reflexivity|]. symmetry. apply Z.eqb_neq. intros Q. apply X. rewrite <- Q. now apply in_map.
  - replace (g_id a =? g_id m)%Z with false.
    + f_equal. now apply IH.
    + symmetry. apply Z.eqb_neq. intros Q. apply X. rewrite Q. apply in_map. eapply nth_error_In; eauto.
Qed.

Lemma fold_res_app : forall S A (f : S -> A -> res S) a b s, fold_res f s (a ++ b) = (do s' <- fold_res f s a; fold_res f s' b).
Proof. induction a as [|x a IH]; intros b s; cbn [fold_res List.app bind]; auto. destruct (f s x); cbn [bind]; auto. Qed.

Lemma all_rev : forall p s, all_chars p (rev_string s) = all_chars p s.
Proof.
  intros p s. induction s as [|c s IH]; [reflexivity|]. rewrite rev_cons, all_chars_app, IH. cbn [all_chars].
  rewrite andb_true_r. apply andb_comm.
Qed.
Lemma drop_all : forall p q s, all_chars p s = true -> all_chars p (drop_while q s) = true.
Proof.
  induction s as [|c s IH]; intros H; auto. cbn [drop_while]. destruct (q c); auto. apply IH. cbn in H. apply andb_true_iff in H. tauto.
Qed.
Lemma match_colon_all : forall p s r, all_chars p s = true -> match_colon s = Some r -> all_chars p r = true.
Proof.
  intros p s r H M. unfold match_colon in M. destruct s as [|c s]; [discriminate|]. destruct (is_space c); [|discriminate].
  pose proof (drop_all p is_space _ H) as D. destruct (drop_while is_space (String c s)) as [|k t]; [discriminate|].
  destruct (Ascii.eqb k ":"); [|discriminate]. cbn [all_chars] in D. apply andb_true_iff in D. destruct D as [_ D].
  destruct t as [|c' t]; [discriminate|]. destruct (is_space c'); [|discriminate]. replace r with (drop_while is_space (String c' t)) by congruence. now apply drop_all.
Qed.
Lemma split_colon_all : forall p f acc seen s, all_chars p acc = true -> all_chars p s = true ->
  Forall (fun t => all_chars p t = true) (split_colon_from f acc seen s).
Proof.
  induction f as [|f IH]; intros acc seen s A S; cbn [split_colon_from]; [constructor|].
  destruct s as [|c r].
  - destruct (seen && _); constructor; auto. now rewrite all_rev.
  - destruct (match_colon (String c r)) as [rest|] eqn:M.
    + constructor; [now rewrite all_rev|]. apply IH; auto. eapply match_colon_all; eauto.
    + apply IH; [|cbn in S; apply andb_true_iff in S; tauto]. cbn [all_chars] in *. apply andb_true_iff in S. destruct S as [S _]. now rewrite S, A.
Qed.
Lemma each_single : forall p t acc, not_in p t -> split_each_from p acc false t = [rev_string acc ++ t].
Proof.
  induction t as [|a t IH]; intros acc N; cbn [split_each_from]; [now rewrite app_nil_r|].
  unfold not_in in N. cbn [all_chars] in N. apply andb_true_iff in N. destruct N as [A N]. apply negb_true_iff in A.
  rewrite A, IH by auto. now rewrite rev_cons, app_assoc.
Qed.

Lemma nth_all : forall p l n, Forall (fun t => all_chars p t = true) l -> all_chars p (nth n l "") = true.
Proof. intros p l n F. revert n. induction F; intros [|n]; cbn; auto. Qed.

Lemma unquoted_no_sig : forall l, no_quote l = true -> sig_of l = [].
Proof.
  intros l Q. unfold sig_of. destruct (is_signal_line l); auto. unfold parse_signal_line.
  pose proof (split_colon_all (fun c => negb (Ascii.eqb c DQ)) (S (String.length l)) "" false l eq_refl Q) as F.
  change (split_colon_from (S (String.length l)) "" false l) with (split_colon l) in F.
  destruct (List.length (split_colon l) <? 2)%nat; auto.
  pose proof (nth_all _ _ 1 F) as N1.
  assert (T : split_each is_quote (nth 1 (split_colon l) "") = [nth 1 (split_colon l) ""]) by exact (each_single is_quote _ "" N1).
  rewrite T. clear T. cbv zeta. cbn [List.length Nat.eqb].
  destruct (_ <? 2)%nat; auto. destruct (_ <? 7)%nat; auto. destruct (get_sig_type _ _ _ _ _); auto.
Qed.

(** *** lines with transmitters *)

Definition set_trans (e : N * list string) (m : message) : message := with_trans m (fold_left add_new (snd e) (g_trans m)).
Definition tx_ok (e : N * list string) : Prop :=
  (Z.of_N (fst e) < 2 ^ 63)%Z /\ (plain_id (fst e) <> 0)%N /\ snd e <> [] /\ forall x, In x (snd e) -> node_name x.

Lemma digit_noquote : forall c, is_digit c = true -> negb (Ascii.eqb c DQ) = true.
Proof. apply ascii_impl. vm_compute. reflexivity. Qed.
Lemma node_noquote : forall c, node_char c = true -> negb (Ascii.eqb c DQ) = true.
Proof. apply ascii_impl. vm_compute. reflexivity. Qed.
Lemma commas_all : forall p l, p ","%char = true -> (forall x, In x l -> all_chars p x = true) -> all_chars p (commas l) = true.
Proof.
  intros p l C. induction l as [|x l IH]; intros H; [reflexivity|]. destruct l as [|y l].
  - apply H. now left.
  - cbn [commas]. rewrite all_chars_app, H by (now left). change ("," ++ ?r) with (String "," r). cbn [all_chars]. rewrite C. apply IH. intros; apply H; now right.
Qed.
Lemma tx_noquote : forall id nodes, (forall x, In x nodes -> node_name x) -> no_quote (tx_line id nodes) = true.
Proof.
  intros id nodes H. unfold no_quote, tx_line. rewrite !all_chars_app.
  rewrite (all_chars_impl _ _ (dec id) digit_noquote (dec_digits id)).
  rewrite commas_all; [reflexivity|reflexivity|]. intros x I. destruct (H x I) as [_ X].
  eapply all_chars_impl; [|exact X]. apply node_noquote.
Qed.
Lemma tx_trim : forall id nodes, str_trim (tx_line id nodes) = tx_line id nodes.
Proof. intros. apply trim_solid. unfold solid_end, tx_line. rewrite <- !app_assoc. now rewrite ends_semi. Qed.

Lemma tx_step : forall srt st e st1, tx_ok e -> info_line srt st (tx_line (fst e) (snd e)) = Ok st1 ->
  p_cur st1 = None /\ p_msgs st1 = update_message (add_message srt (p_msgs st) (p_cur st)) (Z.of_N (plain_id (fst e))) (set_trans e).
Proof.
  intros srt st [id nodes] st1 (I & P & E & H) S. cbn [fst snd] in *. unfold info_line in S. rewrite tx_trim in S. cbv zeta in S.
  rewrite parse_tx in S by auto.
  destruct (find_version _) as [ver| |]; try discriminate. cbn [bind] in S.
  replace (is_message_line (tx_line id nodes)) with false in S by reflexivity.
  pose proof (unquoted_no_sig _ (tx_noquote id nodes H)) as Q. unfold sig_of in Q.
  assert (C : (match p_cur st with
                | Some m => if is_signal_line (tx_line id nodes) then do s <- parse_signal_line (tx_line id nodes);
                              Ok (Some (match s with Some s => push_sig m s | None => m end)) else Ok (p_cur st)
                | None => Ok (p_cur st) end) = Ok (p_cur st) \/
              match (match p_cur st with
                | Some m => if is_signal_line (tx_line id nodes) then do s <- parse_signal_line (tx_line id nodes);
                              Ok (Some (match s with Some s => push_sig m s | None => m end)) else Ok (p_cur st)
                | None => Ok (p_cur st) end) with Ok _ => False | _ => True end).
  { destruct (p_cur st) as [m|]; auto. destruct (is_signal_line (tx_line id nodes)); auto.
    destruct (parse_signal_line (tx_line id nodes)) as [[s|]| |]; try discriminate; cbn [bind]; auto. }
  destruct C as [C|C].
  - rewrite C in S. cbn [bind] in S. replace (Z.of_N (plain_id id) =? 0)%Z with false in S by lia. injection S as <-. split; reflexivity.
  - destruct (match p_cur st with Some _ => _ | None => _ end) in S, C; try contradiction; discriminate.
Qed.

Lemma tx_fold : forall srt es st st1, (forall e, In e es -> tx_ok e) ->
  fold_res (info_line srt) st (map (fun e => tx_line (fst e) (snd e)) es) = Ok st1 ->
  add_message srt (p_msgs st1) (p_cur st1)
  = fold_left (fun ms e => update_message ms (Z.of_N (plain_id (fst e))) (set_trans e)) es (add_message srt (p_msgs st) (p_cur st)).
Proof.
  intros srt. induction es as [|e es IH]; intros st st1 H S; cbn [map fold_res fold_left] in *; [congruence|].
  destruct (info_line srt st (tx_line (fst e) (snd e))) as [st2| |] eqn:E; try discriminate. cbn [bind] in S.
  apply tx_step in E; [|apply H; now left]. destruct E as [C M].
  rewrite (IH st2 st1) by (auto; intros; apply H; now right). rewrite C, M. reflexivity.
Qed.

Lemma tx_unchanged : forall e m, g_id (set_trans e m) = g_id m.
Proof. reflexivity. Qed.

Lemma map_ids : forall (f : message -> message) ms, (forall m, g_id (f m) = g_id m) -> map g_id (map f ms) = map g_id ms.
Proof. intros f ms H. rewrite map_map. now apply map_ext. Qed.

Definition nodes_for (es : list (N * list string)) (i : Z) : list string :=
  flat_map (fun e => if (Z.of_N (plain_id (fst e)) =? i)%Z then snd e else []) es.

Lemma updates_map : forall es ms, NoDup (map g_id ms) -> (forall e, In e es -> In (Z.of_N (plain_id (fst e))) (map g_id ms)) ->
  fold_left (fun ms e => update_message ms (Z.of_N (plain_id (fst e))) (set_trans e)) es ms
  = map (fun m => with_trans m (fold_left add_new (nodes_for es (g_id m)) (g_trans m))) ms.
Proof.
  induction es as [|e es IH]; intros ms N H; cbn [fold_left].
  - rewrite <- (map_id ms) at 1. apply map_ext. intros m. now destruct m.
  - rewrite update_known by (auto; apply H; now left).
    assert (G : forall m, g_id (if (g_id m =? Z.of_N (plain_id (fst e)))%Z then set_trans e m else m) = g_id m) by (intros m; destruct (_ =? _)%Z; reflexivity).
    rewrite IH.
    + rewrite map_map. apply map_ext. intros m. rewrite G. unfold nodes_for. cbn [flat_map]. rewrite fold_left_app.
      rewrite (Z.eqb_sym (Z.of_N _)). destruct (g_id m =? _)%Z; reflexivity.
    + now rewrite (map_ids _ _ G).
    + rewrite (map_ids _ _ G). intros; apply H; now right.
Qed.

Theorem tx_lines : forall srt ls es d d', parse_message_info srt ls = Ok d -> (forall e, In e es -> tx_ok e) ->
  NoDup (map g_id (d_msgs d)) -> (forall e, In e es -> In (Z.of_N (plain_id (fst e))) (map g_id (d_msgs d))) ->
  parse_message_info srt (ls ++ map (fun e => tx_line (fst e) (snd e)) es) = Ok d' ->
  d_msgs d' = map (fun m => with_trans m (fold_left add_new (nodes_for es (g_id m)) (g_trans m))) (d_msgs d).
Proof.
  intros srt ls es d d' D O N K D'. unfold parse_message_info in *. rewrite fold_res_app in D'.
  destruct (fold_res _ _ ls) as [st| |]; try discriminate. cbn [bind] in D, D'. injection D as <-. cbn [d_msgs] in *.
  destruct (fold_res _ st _) as [st1| |] eqn:E; try discriminate. cbn [bind] in D'. injection D' as <-. cbn [d_msgs].
  rewrite (tx_fold _ _ _ _ O E). now apply updates_map.
Qed.
