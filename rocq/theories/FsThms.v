(** Whole runs: which paths change and what the files hold. *)

From Coq Require Import ZArith NArith List String Ascii Bool Lia ZifyBool.
From Verif Require Import Base Types Formatter SigPrinter Settings StaticText MainGen UtilGen Scanner Options FsModel App FsSpec LexLemmas FsProof CliProof ScanPass1 DriverProof.
Import ListNotations.
Open Scope string_scope.

Lemma app_out : forall o now d, out_settings (app_settings o now d) (out_dir o).
Proof. intros. unfold out_settings, out_dir, app_settings. cbn. repeat split. Qed.

Lemma run_cases : forall srt now argv f f', run srt now argv f = Ok f' -> let o := get_options argv in
  f' = f /\ (params_valid o = false \/ exists_path f (fst (o_dbc o)) = false) \/
  params_valid o = true /\ exists_path f (fst (o_dbc o)) = true /\
  exists d g ret, scan srt (dbc_text f o) = Ok d /\ prepare_directory f (app_settings o now d) (o_rw o) = Ok (g, ret) /\
    (ret = false /\ f' = g \/ ret = true /\ exists main util g1 s1 s2, run_files srt now o d = Ok (main, util) /\
       flush_files (g, "") main = (g1, s1) /\ flush_files (g1, "") util = (f', s2)).
Proof.
  intros srt now argv f f' H o. unfold run in H. fold o in H. destruct (params_valid o) eqn:V; [|injection H as <-; auto].
  unfold generate_code in H. destruct (exists_path f (fst (o_dbc o))) eqn:E; cbn [negb] in H; [|injection H as <-; auto].
  right. split; [reflexivity|]. split; [reflexivity|]. change (match look f (norm (fst (o_dbc o))) with Some (File t) => t | _ => "" end) with (dbc_text f o) in H.
  destruct (scan srt (dbc_text f o)) as [d| |] eqn:S; cbn [bind] in H; try discriminate. cbv zeta in H.
  destruct (prepare_directory f _ _) as [[g ret]| |] eqn:P; cbn [bind] in H; try discriminate.
  exists d, g, ret. split; [reflexivity|]. split; [exact P|]. destruct ret; [right|left; now injection H as <-]. split; [reflexivity|].
  destruct (generate_main srt d (app_settings o now d)) as [main| |] eqn:M; cbn [bind] in H; try discriminate.
  destruct (flush_files (g, "") main) as [g1 s1] eqn:F1. destruct (flush_files (g1, "") _) as [g2 s2] eqn:F2. injection H as <-.
  exists main, (util_files srt d (app_settings o now d) (o_nodeutils o) (fst (o_drv o))), g1, s1, s2. split; [|split; [exact F1|exact F2]].
  unfold run_files. rewrite M. reflexivity.
Qed.

(** ** The paths *)

Lemma lower_app : forall a b, str_tolower (a ++ b) = str_tolower a ++ str_tolower b.
Proof. induction a as [|c a IH]; intros b; [reflexivity|]. unfold str_tolower in *. cbn [append map_string]. now rewrite IH. Qed.
Lemma lower_lower : forall a, str_tolower (str_tolower a) = str_tolower a.
Proof.
  induction a as [|c a IH]; [reflexivity|]. unfold str_tolower in *. cbn [map_string]. rewrite IH. f_equal.
  destruct c as [[] [] [] [] [] [] [] []]; reflexivity.
Qed.
Lemma no_slash_app : forall a b, no_slash a -> no_slash b -> no_slash (a ++ b).
Proof. intros a b A B. unfold no_slash in *. rewrite all_chars_app, A, B. reflexivity. Qed.
Lemma no_slash_lower : forall a, no_slash a -> no_slash (str_tolower a).
Proof. intros a A. unfold no_slash in *. apply all_map; [|exact A]. intros c. destruct c as [[] [] [] [] [] [] [] []]; vm_compute; auto. Qed.
Lemma no_slash_ident : forall a, is_ident a = true -> no_slash a.
Proof.
  intros a A. unfold no_slash. assert (X : all_chars is_idchar a = true).
  { destruct a as [|c a]; [discriminate|]. cbn [is_ident all_chars] in *. apply andb_true_iff in A. destruct A as [A B]. rewrite B, andb_true_r. unfold is_idchar, is_idstart in *. now rewrite A. }
  revert X. apply all_chars_impl. intros c. destruct c as [[] [] [] [] [] [] [] []]; vm_compute; auto.
Qed.

Definition place (o : options) (dir name : string) : string := out_dir o ++ "/" ++ dir ++ "/" ++ name.
Lemma place_assoc : forall o dir r, (out_dir o ++ "/" ++ dir) ++ r = out_dir o ++ "/" ++ dir ++ r.
Proof. intros. now rewrite !app_assoc. Qed.

Lemma main_paths : forall srt o now d main, generate_main srt d (app_settings o now d) = Ok main ->
  map fst main = ([place o "lib" (str_tolower (fst (o_drv o)) ++ ".h"); place o "lib" (str_tolower (fst (o_drv o)) ++ ".c"); place o "lib" (str_tolower (fst (o_drv o)) ++ "-fmon.h")] ++
    (if o_nofmon o then [] else [place o "usr" (str_tolower (fst (o_drv o)) ++ "-fmon.c")]) ++
    (if o_noconfig o then [] else [place o "conf" (str_tolower (fst (o_drv o)) ++ "-config.h"); place o "conf" "dbccodeconf.h"]) ++
    (if o_noinc o then [] else [place o "inc" "canmonitorutil.h"]))%list.
Proof.
  intros srt o now d main H. unfold generate_main in H. destruct (load_messages (d_msgs d)) as [xs0| |]; cbn [bind] in H; try discriminate.
  destruct (main_header _ _ _) as [h| |]; cbn [bind] in H; try discriminate. destruct (main_source _ _ _) as [c| |]; cbn [bind] in H; try discriminate.
  apply (f_equal (fun r => match r with Ok l => map fst l | _ => [] end)) in H. symmetry in H. rewrite H. clear H main.
  rewrite !map_app. unfold place. unfold app_settings. fold (out_dir o). unfold configure.
  cbn [st_g st_f n_nofmon n_noconfig n_noinc f_coreh_path f_corec_path f_fmonh_path f_fmonc_path f_confdir f_incdir n_drv].
  rewrite !app_assoc. destruct (o_nofmon o), (o_noconfig o), (o_noinc o); reflexivity.
Qed.
Lemma util_paths : forall srt o now d, map fst (util_files srt d (app_settings o now d) (o_nodeutils o) (fst (o_drv o))) =
  if o_nodeutils o then flat_map (fun n => [place o "butl" (str_tolower (n ++ "_" ++ fst (o_drv o)) ++ "-binutil.h"); place o "butl" (str_tolower (n ++ "_" ++ fst (o_drv o)) ++ "-binutil.c")]) (node_names (d_msgs d))
  else [place o "butl" (str_tolower (fst (o_drv o)) ++ "-binutil.h"); place o "butl" (str_tolower (fst (o_drv o)) ++ "-binutil.c")].
Proof.
  intros srt o now d. unfold util_files. destruct (o_nodeutils o).
  - induction (node_names (d_msgs d)) as [|n l IH]; [reflexivity|]. cbn [flat_map]. rewrite map_app, IH. f_equal.
    unfold generate_util, node_settings, app_settings, configure. fold (out_dir o). cbn [map fst st_f f_utilh_path f_utilc_path f_utildir]. unfold place.
    rewrite !(lower_app (str_tolower _)), !lower_lower. rewrite !app_assoc. reflexivity.
  - unfold generate_util, app_settings, configure, place. fold (out_dir o). cbn [map fst st_f f_utilh_path f_utilc_path]. rewrite !app_assoc. reflexivity.
Qed.

Lemma names_in : forall ms l n, In n (fold_left (fun l m => fold_left add_new (g_recs m) (fold_left add_new (g_trans m) l)) ms l) <->
  In n l \/ exists m, In m ms /\ (In n (g_trans m) \/ In n (g_recs m)).
Proof.
  induction ms as [|m ms IH]; intros l n; cbn [fold_left].
  - split; [auto|]. intros [X|(m & [] & _)]. exact X.
  - rewrite IH, !union_in. split.
    + intros [[[X|X]|X]|(k & I & X)]; [auto|right; exists m; cbn; auto|right; exists m; cbn; auto|right; exists k; cbn; auto].
    + intros [X|(k & [<-|I] & X)]; [auto|tauto|right; exists k; auto].
Qed.
Lemma node_in : forall d n, In n (node_names (d_msgs d)) <-> is_node d n.
Proof.
  intros d n. unfold node_names. rewrite names_in. unfold is_node. split; [intros [[]|X]; exact X|auto].
Qed.

Lemma files_listed : forall srt now o d main util, run_files srt now o d = Ok (main, util) ->
  (forall p t, In (p, t) (main ++ util)%list -> exists dir name, listed o d dir name /\ p = place o dir name) /\
  (forall dir name, listed o d dir name -> exists t, In (place o dir name, t) (main ++ util)%list).
Proof.
  intros srt now o d main util H. unfold run_files in H. destruct (generate_main _ _ _) as [m| |] eqn:M; cbn [bind] in H; try discriminate.
  injection H as -> <-. apply main_paths in M. pose proof (util_paths srt o now d) as U.
  set (util := util_files srt d (app_settings o now d) (o_nodeutils o) (fst (o_drv o))) in *. clearbody util. split.
  - intros p t I. assert (J : In p (map fst (main ++ util))) by (apply in_map_iff; now exists (p, t)). rewrite map_app, M, U in J. clear I M U.
    rewrite !in_app_iff in J. destruct J as [[J|[J|[J|J]]]|J].
    + cbn [In] in J. destruct J as [<-|[<-|[<-|[]]]]; (eexists _, _; split; [|reflexivity]); apply l_core; cbn; tauto.
    + destruct (o_nofmon o) eqn:E; [destruct J|]. destruct J as [<-|[]]. eexists _, _. split; [|reflexivity]. now apply l_fmon.
    + destruct (o_noconfig o) eqn:E; [destruct J|]. destruct J as [<-|[<-|[]]]; (eexists _, _; split; [|reflexivity]); [now apply l_config|now apply l_dbccode].
    + destruct (o_noinc o) eqn:E; [destruct J|]. destruct J as [<-|[]]. eexists _, _. split; [|reflexivity]. now apply l_inc.
    + destruct (o_nodeutils o) eqn:E.
      * apply in_flat_map in J. destruct J as (n & N & J). apply node_in in N. destruct J as [<-|[<-|[]]]; (eexists _, _; split; [|reflexivity]);
        [apply (l_node o d n ".h")|apply (l_node o d n ".c")]; cbn; auto.
      * destruct J as [<-|[<-|[]]]; (eexists _, _; split; [|reflexivity]); [apply (l_util o d ".h")|apply (l_util o d ".c")]; cbn; auto.
  - intros dir name LI. assert (J : In (place o dir name) (map fst (main ++ util))).
    { rewrite map_app, M, U, !in_app_iff. destruct LI as [x X|F|F|F|F|x F X|n x F N X].
      - left. left. cbn in X |- *. intuition subst; auto.
      - left. right. left. rewrite F. now left.
      - left. right. right. left. rewrite F. now left.
      - left. right. right. left. rewrite F. right. now left.
      - left. right. right. right. rewrite F. now left.
      - right. rewrite F. cbn in X. destruct X as [<-|[<-|[]]]; [now left|right; now left].
      - right. rewrite F. apply in_flat_map. exists n. split; [now apply node_in|]. cbn in X. destruct X as [<-|[<-|[]]]; [now left|right; now left]. }
    apply in_map_iff in J. destruct J as ([p t] & E & J). cbn [fst] in E. subst p. now exists t.
Qed.

Lemma drv_long : forall o x, is_ident (fst (o_drv o)) = true -> no_slash x -> (2 <= String.length x)%nat -> FsProof.name_ok (str_tolower (fst (o_drv o)) ++ x).
Proof.
  intros o x ID N L. split; [apply no_slash_app; [apply no_slash_lower, no_slash_ident, ID|exact N]|]. rewrite app_len.
  unfold str_tolower. rewrite len_map. destruct (fst (o_drv o)); [discriminate|]. cbn. lia.
Qed.
Lemma listed_names : forall o d dir name, is_ident (fst (o_drv o)) = true -> plain_nodes o d -> listed o d dir name -> In dir sub_dirs /\ FsProof.name_ok name.
Proof.
  intros o d dir name ID PN LI.
  destruct LI as [x X|F|F|F|F|x F X|n x F N X]; (split; [cbn; tauto|]); try (split; [reflexivity|cbn; lia]).
  - apply drv_long; [exact ID| |]; cbn in X; intuition subst; reflexivity || (cbn; lia).
  - apply drv_long; [exact ID|reflexivity|cbn; lia].
  - apply drv_long; [exact ID|reflexivity|cbn; lia].
  - apply drv_long; [exact ID| |]; cbn in X; intuition subst; reflexivity || (cbn; lia).
  - split; [|rewrite app_len; cbn in X; intuition subst; cbn; lia]. apply no_slash_app; [|cbn in X; intuition subst; reflexivity].
    apply no_slash_lower, no_slash_app; [now apply PN|]. apply (no_slash_app "_"); [reflexivity|now apply no_slash_ident].
Qed.
Lemma sub_plain : forall dir, In dir sub_dirs -> FsProof.name_ok dir.
Proof. intros dir I. split; cbn in I; intuition subst; reflexivity || (cbn; lia). Qed.
Lemma listed_norm : forall o d dir name, out_dir o <> "" -> is_ident (fst (o_drv o)) = true -> plain_nodes o d -> listed o d dir name ->
  norm (place o dir name) = (norm (out_dir o) ++ [dir; name])%list.
Proof.
  intros o d dir name OD ID PN LI. destruct (listed_names _ _ _ _ ID PN LI) as (S & N). pose proof (sub_plain dir S) as S1.
  now apply norm_file.
Qed.

(** ** Numbered directories *)

Lemma d03_plain : forall k, (k < 1000)%nat -> FsProof.name_ok (d03 k) /\ ~ In (d03 k) sub_dirs.
Proof.
  intros k K. assert (A : forallb (fun k => all_chars (fun c => negb (Ascii.eqb c "/")) (d03 k) && (3 <=? String.length (d03 k))%nat &&
    negb (existsb (String.eqb (d03 k)) sub_dirs)) (seq 0 1000) = true) by (vm_compute; reflexivity).
  rewrite forallb_forall in A. specialize (A k ltac:(apply in_seq; lia)). apply andb_true_iff in A. destruct A as [A C]. apply andb_true_iff in A. destruct A as [A B].
  split; [split; [exact A|apply Nat.leb_le; exact B]|]. intros I. apply negb_true_iff in C. assert (X : existsb (String.eqb (d03 k)) sub_dirs = true).
  { apply existsb_exists. exists (d03 k). split; [exact I|apply String.eqb_refl]. } congruence.
Qed.
Lemma last_slash : forall s, last_char s = Some "/"%char -> exists t, s = t ++ "/".
Proof.
  induction s as [|c s IH]; [discriminate|]. destruct s as [|c' s].
  - intros H. cbn in H. injection H as ->. now exists "".
  - intros H. destruct IH as [t E]; [exact H|]. exists (String c t). cbn [append]. now rewrite E.
Qed.
Lemma numbered_norm : forall o k, out_dir o <> "" -> (k < 1000)%nat -> norm (numbered o k) = (norm (out_dir o) ++ [d03 k])%list.
Proof.
  intros o k NE K. destruct (d03_plain k K) as (S & _). destruct (name_comps _ S) as [S1 S2]. unfold numbered. destruct (last_char (out_dir o)) as [c|] eqn:LC; [|now apply norm_dir].
  destruct (Ascii.eqb_spec c "/") as [->|]; [|now apply norm_dir]. destruct (last_slash _ LC) as [t E]. rewrite E. change ("" ++ d03 k) with (d03 k). rewrite app_assoc.
  destruct (string_dec t "") as [->|T].
  - unfold norm. change ("" ++ "/" ++ d03 k) with (String "/" (d03 k)). cbv iota beta. rewrite Ascii.eqb_refl.
    change (String "/" (d03 k)) with ("" ++ "/" ++ d03 k). rewrite comps_app, S1. cbn [comps_from app]. rewrite steps_plain by exact S2. reflexivity.
  - rewrite (norm_app t (d03 k) T), S1 by (rewrite S1; exact S2). f_equal. change "/" with ("/" ++ "") at 1. rewrite (norm_app t "" T) by (intros []). cbn. now rewrite List.app_nil_r.
Qed.

(** ** Flushing: more *)

Lemma flush_some : forall l f pend f' pend' p, flush_files (f, pend) l = (f', pend') -> openable f p = true ->
  (exists t, In (p, t) l) \/ (exists t, look f (norm p) = Some (File t)) -> exists t, look f' (norm p) = Some (File t).
Proof.
  unfold flush_files. induction l as [|[p0 t0] l IH]; intros f pend f' pend' p H O X; cbn [fold_left] in H.
  - injection H as <- <-. destruct X as [[t []]|X]; exact X.
  - rewrite flush_step in H. destruct (openable f p0) eqn:O0.
    + pose proof (put_kept f p0 (pend ++ t0) O0) as K. apply (IH _ _ _ _ p H); [rewrite (openable_same _ _ p K); exact O|].
      destruct (path_eqb (norm p) (norm p0)) eqn:E.
      * right. exists (pend ++ t0). rewrite look_put by apply (openable_root _ _ O0). now rewrite E.
      * destruct X as [[t [J|J]]|[t J]]; [injection J as -> ->; now rewrite path_eqb_refl in E|left; now exists t|right; exists t].
        rewrite look_put by apply (openable_root _ _ O0). now rewrite E.
    + apply (IH _ _ _ _ p H O). destruct X as [[t [J|J]]|X]; [injection J as -> ->; congruence|left; now exists t|now right].
Qed.

Lemma node_dec : forall a b : option node, {a = b} + {a <> b}.
Proof. intros. decide equality. decide equality. apply string_dec. Qed.

Lemma last_app : forall q a b, last_text q (a ++ b) = match last_text q b with Some t => Some t | None => last_text q a end.
Proof.
  induction a as [|[p t] a IH]; intros b; cbn [app last_text]; [now destruct (last_text q b)|]. rewrite IH. destruct (last_text q b); reflexivity.
Qed.

(** ** Whole runs *)

Section Run.
Variables (srt : sorter) (now : string) (argv : list string) (f f' : fs).
Let o := get_options argv.
Hypothesis R : run srt now argv f = Ok f'.
Hypothesis PN : forall d, scan srt (dbc_text f o) = Ok d -> plain_nodes o d.

(** every change is a new directory of the run or one of its files *)
Lemma run_changes : forall q, look f' q <> look f q -> out_dir o <> "" /\ exists d, scan srt (dbc_text f o) = Ok d /\
  (look f q = None /\ look f' q = Some Dir /\ run_dir o q \/
   exists dir name t, listed o d dir name /\ q = (norm (out_dir o) ++ [dir; name])%list /\ look f' q = Some (File t)).
Proof.
  intros q NE. destruct (run_cases _ _ _ _ _ R) as [[-> _]|(V & _ & d & g & ret & S & P & C)]; [congruence|]. fold o in V, S, P, C.
  destruct (prepared _ _ _ _ _ o (app_out o now d) eq_refl P) as (OD & qs & (GD & GL & GC) & RD & SUB & _).
  split; [exact OD|]. exists d. split; [exact S|].
  assert (ID : is_ident (fst (o_drv o)) = true) by (apply valid_name_ident; exact V).
  assert (DIR : look g q <> look f q -> look f q = None /\ look g q = Some Dir /\ run_dir o q).
  { intros X. rewrite GL in X |- *. destruct (existsb (path_eqb q) qs) eqn:E; [|congruence]. apply existsb_exists in E. destruct E as (x & I & E). apply path_eqb_eq in E. subst x.
    split; [|split; [reflexivity|now apply RD]]. destruct (GC q I) as [Y|Y]; congruence. }
  destruct C as [[-> ->]|(-> & main & util & g1 & s1 & s2 & F & F1 & F2)]; [left; auto|].
  destruct (files_listed _ _ _ _ _ _ F) as [FL _].
  destruct (flush_kept _ _ _ _ _ F1) as [K1 _]. destruct (flush_kept _ _ _ _ _ F2) as [K2 _].
  assert (CASE : look f' q = look g q \/ exists p t, In (p, t) (main ++ util)%list /\ openable g p = true /\ q = norm p).
  { assert (D : forall l : list (string * string), (exists p t, In (p, t) l /\ openable g p = true /\ q = norm p) \/ (forall p t, In (p, t) l -> openable g p = true -> q <> norm p)).
    { induction l as [|[p t] l [(p' & t' & I & X)|N]].
      - right. intros p t [].
      - left. exists p', t'. split; [now right|exact X].
      - destruct (openable g p) eqn:O.
        + destruct (path_eqb q (norm p)) eqn:E.
          * left. exists p, t. split; [now left|]. split; [exact O|]. now apply path_eqb_eq.
          * right. intros p' t' [J|J] O'; [injection J as <- <-; intros X; apply path_eqb_eq in X; congruence|eauto].
        + right. intros p' t' [J|J] O'; [injection J as <- <-; congruence|eauto]. }
    destruct (D main) as [(p & t & I & X)|N1]; [right; exists p, t; split; [apply in_or_app; now left|exact X]|].
    destruct (D util) as [(p & t & I & X)|N2]; [right; exists p, t; split; [apply in_or_app; now right|exact X]|].
    left. rewrite (flush_other _ _ _ _ _ q F2), (flush_other _ _ _ _ _ q F1); [reflexivity|exact N1|].
    intros p t I O. apply (N2 p t I). rewrite <- (openable_same _ _ p K1). exact O. }
  destruct CASE as [E|(p & t & I & O & ->)]; [left; rewrite E in NE |- *; auto|]. right.
  destruct (FL p t I) as (dir & name & LI & ->). exists dir, name.
  assert (T : exists u, look f' (norm (place o dir name)) = Some (File u)).
  { assert (O1 : openable g1 (place o dir name) = true) by (rewrite (openable_same _ _ _ K1); exact O).
    apply in_app_or in I. destruct I as [I|I].
    - apply (flush_some _ _ _ _ _ _ F2 O1). right. apply (flush_some _ _ _ _ _ _ F1 O). left. now exists t.
    - apply (flush_some _ _ _ _ _ _ F2 O1). left. now exists t. }
  destruct T as [u T]. exists u. split; [exact LI|]. split; [|exact T]. now apply (listed_norm o d dir name OD ID (PN d S)).
Qed.

(** the listed files can be opened *)
Lemma run_open : forall d, params_valid o = true -> exists_path f (fst (o_dbc o)) = true -> scan srt (dbc_text f o) = Ok d ->
  (o_rw o = false -> exists k, (k < 1000)%nat /\ is_dir f (norm (numbered o k)) = false) ->
  out_dir o <> "" /\ exists g main util g1 s1 s2, run_files srt now o d = Ok (main, util) /\ flush_files (g, "") main = (g1, s1) /\ flush_files (g1, "") util = (f', s2) /\
  forall dir name, listed o d dir name -> fs_deny f (norm (out_dir o) ++ [dir; name])%list = false -> is_dir f (norm (out_dir o) ++ [dir; name])%list = false ->
  norm (place o dir name) = (norm (out_dir o) ++ [dir; name])%list /\ openable g (place o dir name) = true.
Proof.
  intros d V EX S FREE. pose proof (run_cases _ _ _ _ _ R) as RC. cbv zeta in RC. change (get_options argv) with o in RC.
  destruct RC as [[_ [X|X]]|(_ & _ & d' & g & ret & S' & P & C)]; try congruence.
  assert (d' = d) by congruence. subst d'.
  destruct (prepared _ _ _ _ _ o (app_out o now d) eq_refl P) as (OD & qs & (GD & GL & GC) & RD & SUB & T1 & T2 & T3).
  assert (RET : ret = true).
  { destruct (o_rw o) eqn:RW; [now apply T1|]. destruct ret; [reflexivity|]. destruct (FREE eq_refl) as (k & K & N). rewrite (T3 eq_refl eq_refl k K) in N. discriminate. }
  subst ret. destruct C as [[X _]|(_ & main & util & g1 & s1 & s2 & F & F1 & F2)]; [discriminate|].
  assert (ID : is_ident (fst (o_drv o)) = true) by (apply valid_name_ident; exact V).
  split; [exact OD|]. exists g, main, util, g1, s1, s2. split; [exact F|]. split; [exact F1|]. split; [exact F2|]. intros dir name LI DENY ND.
  destruct (listed_names _ _ _ _ ID (PN d S) LI) as (SD & NM0).
  pose proof (listed_norm o d dir name OD ID (PN d S) LI) as NM.
  assert (NQ : existsb (path_eqb (norm (place o dir name))) qs = false).
  { destruct (existsb _ qs) eqn:E; [|reflexivity]. apply existsb_exists in E. destruct E as (x & I & E). apply path_eqb_eq in E. subst x. rewrite NM in I.
    destruct (RD _ I) as [[_ Y]|[[_ (k & K & Y)]|(s & _ & Y)]].
    - apply (f_equal (@List.length string)) in Y. rewrite app_length in Y. cbn in Y. lia.
    - rewrite (numbered_norm o k OD K) in Y. apply (f_equal (@List.length string)) in Y. rewrite !app_length in Y. cbn in Y. lia.
    - apply (f_equal (@List.length string)) in Y. rewrite !app_length in Y. cbn in Y. lia. }
  split; [exact NM|]. unfold openable. rewrite GD, NM, DENY. rewrite NM in NQ.
    assert (PE : parent (norm (out_dir o) ++ [dir; name])%list = (norm (out_dir o) ++ [dir])%list).
    { unfold parent. change [dir; name] with ([dir] ++ [name])%list. rewrite List.app_assoc. apply removelast_last. }
    rewrite PE. unfold is_dir at 1. rewrite (GL (norm (out_dir o) ++ [dir])%list).
    assert (Q : existsb (path_eqb (norm (out_dir o) ++ [dir])%list) qs = true) by (apply existsb_exists; exists (norm (out_dir o) ++ [dir])%list; split; [now apply SUB|apply path_eqb_refl]).
    rewrite Q, (GL (norm (out_dir o) ++ [dir; name])%list), NQ. unfold is_dir in ND.
    assert (NE : String.eqb (place o dir name) "" = false).
    { apply String.eqb_neq. intros E. unfold place in E. destruct (out_dir o); discriminate. }
    rewrite NE. destruct (look f (norm (out_dir o) ++ [dir; name])%list) as [[|]|]; [discriminate|reflexivity|reflexivity].
Qed.

(** every listed file that can be written is there *)
Lemma run_writes : forall d dir name, params_valid o = true -> exists_path f (fst (o_dbc o)) = true -> scan srt (dbc_text f o) = Ok d ->
  (o_rw o = false -> exists k, (k < 1000)%nat /\ is_dir f (norm (numbered o k)) = false) ->
  listed o d dir name -> fs_deny f (norm (out_dir o) ++ [dir; name])%list = false -> is_dir f (norm (out_dir o) ++ [dir; name])%list = false ->
  exists t, look f' (norm (out_dir o) ++ [dir; name])%list = Some (File t).
Proof.
  intros d dir name V EX S FREE LI DENY ND. destruct (run_open d V EX S FREE) as (_ & g & main & util & g1 & s1 & s2 & F & F1 & F2 & OP).
  destruct (OP dir name LI DENY ND) as [NM O].
  destruct (files_listed _ _ _ _ _ _ F) as [_ FL]. destruct (FL dir name LI) as [t I].
  destruct (flush_kept _ _ _ _ _ F1) as [K1 _].
  assert (O1 : openable g1 (place o dir name) = true) by (rewrite (openable_same _ _ _ K1); exact O).
  rewrite <- NM. apply in_app_or in I. destruct I as [I|I].
  - apply (flush_some _ _ _ _ _ _ F2 O1). right. apply (flush_some _ _ _ _ _ _ F1 O). left. now exists t.
  - apply (flush_some _ _ _ _ _ _ F2 O1). left. now exists t.
Qed.


(** when all of them can be opened, they hold the generated texts *)
Lemma run_texts : forall d, params_valid o = true -> exists_path f (fst (o_dbc o)) = true -> scan srt (dbc_text f o) = Ok d ->
  (o_rw o = false -> exists k, (k < 1000)%nat /\ is_dir f (norm (numbered o k)) = false) ->
  (forall dir name, listed o d dir name -> fs_deny f (norm (out_dir o) ++ [dir; name])%list = false /\ is_dir f (norm (out_dir o) ++ [dir; name])%list = false) ->
  exists main util, run_files srt now o d = Ok (main, util) /\
  forall dir name, listed o d dir name -> exists t, last_text (norm (out_dir o) ++ [dir; name])%list (main ++ util) = Some t /\ look f' (norm (out_dir o) ++ [dir; name])%list = Some (File t).
Proof.
  intros d V EX S FREE ALL. destruct (run_open d V EX S FREE) as (OD & g & main & util & g1 & s1 & s2 & F & F1 & F2 & OP).
  exists main, util. split; [exact F|]. destruct (files_listed _ _ _ _ _ _ F) as [FA FL].
  assert (OA : forall p t, In (p, t) (main ++ util)%list -> openable g p = true).
  { intros p t I. destruct (FA p t I) as (dir & name & LI & ->). destruct (ALL dir name LI). now apply OP. }
  destruct (flush_kept _ _ _ _ _ F1) as [K1 _].
  pose proof (flush_all _ _ _ _ F1 (fun p t I => OA p t (in_or_app _ _ _ (or_introl I)))) as L1.
  assert (L2 : forall q, look f' q = match last_text q util with Some t => Some (File t) | None => look g1 q end).
  { apply (flush_all _ _ _ _ F2). intros p t I. rewrite (openable_same _ _ p K1). apply (OA p t). apply in_or_app. now right. }
  intros dir name LI. destruct (ALL dir name LI) as [DE ND]. destruct (OP dir name LI DE ND) as [NM O]. destruct (FL dir name LI) as [t I]. rewrite <- NM.
  assert (X : exists u, last_text (norm (place o dir name)) (main ++ util) = Some u).
  { clear -I. induction (main ++ util)%list as [|[p u] l IH]; [destruct I|]. cbn [last_text]. destruct I as [E|I].
    - injection E as -> ->. destruct (last_text _ l); [eauto|]. rewrite path_eqb_refl. eauto.
    - destruct (IH I) as [v ->]. eauto. }
  destruct X as [u X]. exists u. split; [exact X|]. rewrite L2, L1. rewrite last_app in X. destruct (last_text (norm (place o dir name)) util); [congruence|]. now rewrite X.
Qed.

(** nothing is written into the new numbered directory *)
Lemma run_numbered : o_rw o = false -> params_valid o = true -> exists_path f (fst (o_dbc o)) = true ->
  (exists k, (k < 1000)%nat /\ is_dir f (norm (numbered o k)) = false) ->
  exists k, (k < 1000)%nat /\ look f (norm (numbered o k)) = None /\ look f' (norm (numbered o k)) = Some Dir /\
    (forall i, (i < k)%nat -> is_dir f (norm (numbered o i)) = true) /\
    forall x r, look f' (norm (numbered o k) ++ x :: r)%list = look f (norm (numbered o k) ++ x :: r)%list.
Proof.
  intros RW V EX FREE. pose proof (run_cases _ _ _ _ _ R) as RC. cbv zeta in RC. change (get_options argv) with o in RC.
  destruct RC as [[_ [X|X]]|(_ & _ & d & g & ret & S & P & C)]; try congruence.
  destruct (prepared _ _ _ _ _ o (app_out o now d) eq_refl P) as (OD & qs & (GD & GL & GC) & RD & SUB & T1 & T2 & T3).
  destruct ret; [|destruct FREE as (k & K & N); rewrite (T3 RW eq_refl k K) in N; discriminate].
  destruct (T2 RW eq_refl) as (k & K & NO & IQ & LO). exists k. split; [exact K|]. split; [exact NO|].
  assert (ND : forall q, q = norm (numbered o k) \/ (exists x r, q = norm (numbered o k) ++ x :: r)%list -> forall dir name, In dir sub_dirs -> q <> (norm (out_dir o) ++ [dir; name])%list).
  { intros q Q dir name SD E. subst q. rewrite (numbered_norm o k OD K) in Q. destruct Q as [Q|(x & r & Q)].
    - apply app_inv_head in Q. discriminate.
    - rewrite <- List.app_assoc in Q. apply app_inv_head in Q. injection Q as Q1 Q2. destruct (d03_plain k K) as (_ & X). apply X. now rewrite <- Q1. }
  assert (GG : look g (norm (numbered o k)) = Some Dir).
  { rewrite GL. destruct (existsb _ qs) eqn:E; [reflexivity|]. assert (Y : existsb (path_eqb (norm (numbered o k))) qs = true) by (apply existsb_exists; exists (norm (numbered o k)); split; [exact IQ|apply path_eqb_refl]). congruence. }
  assert (ID : is_ident (fst (o_drv o)) = true) by (apply valid_name_ident; exact V).
  split; [|split; [exact LO|]].
  - destruct C as [[X _]|(_ & main & util & g1 & s1 & s2 & F & F1 & F2)]; [discriminate|].
    destruct (flush_kept _ _ _ _ _ F1) as [[_ K1] _]. destruct (flush_kept _ _ _ _ _ F2) as [[_ K2] _]. specialize (K1 (norm (numbered o k))). specialize (K2 (norm (numbered o k))).
    unfold is_dir in K1, K2. rewrite GG in K1. destruct (look g1 (norm (numbered o k))) as [[|]|]; try discriminate. destruct (look f' (norm (numbered o k))) as [[|]|]; congruence.
  - intros x r.
    destruct (node_dec (look f' (norm (numbered o k) ++ x :: r)%list) (look f (norm (numbered o k) ++ x :: r)%list)) as [E|NE]; [exact E|exfalso]. destruct (run_changes _ NE) as (_ & d' & S' & [(_ & _ & RQ)|(dir & name & t & LI & Q & _)]).
    + rewrite (numbered_norm o k OD K) in RQ. destruct RQ as [[Y _]|[[_ (k' & K' & Y)]|(s & SS & Y)]]; [congruence| |].
      * rewrite (numbered_norm o k' OD K') in Y. apply (f_equal (@List.length string)) in Y. rewrite !app_length in Y. cbn in Y. lia.
      * apply (f_equal (@List.length string)) in Y. rewrite !app_length in Y. cbn in Y. lia.
    + destruct (listed_names _ _ _ _ ID (PN d' S') LI) as (SD & _). revert Q. apply ND; [right; eauto|exact SD].
Qed.
End Run.

(** ** Flags *)

(** the generator without the flags *)
Definition unflagged (g : gendesc) : gendesc :=
  {| n_orig := n_orig g; n_drv := n_drv g; n_DRV := n_DRV g; n_usebits := n_usebits g; n_usestruct := n_usestruct g; n_usemon := n_usemon g; n_usemono := n_usemono g;
     n_usesigfloat := n_usesigfloat g; n_useroll := n_useroll g; n_usecsm := n_usecsm g; n_verhi := n_verhi g; n_verlow := n_verlow g;
     n_drvinfo := n_drvinfo g; n_cominfo := n_cominfo g; n_hi := n_hi g; n_low := n_low g; n_nofmon := false; n_noinc := false; n_noconfig := false |}.
Lemma macros_unflagged : forall g m sgs passed, sig_macros (unflagged g) m passed sgs = sig_macros g m passed sgs.
Proof.
  induction sgs as [|sg sgs IH]; intros passed; [reflexivity|]. cbn [sig_macros]. change (n_DRV (unflagged g)) with (n_DRV g).
  destruct (if _ || _ then _ else _) as [[p t]| |]; cbn [bind]; [rewrite IH|..]; reflexivity.
Qed.
Lemma msg_unflagged : forall g passed m, msg_header (unflagged g) passed m = msg_header g passed m.
Proof. intros. unfold msg_header. rewrite macros_unflagged. reflexivity. Qed.
Lemma msgs_unflagged : forall g xs passed, msg_headers (unflagged g) passed xs = msg_headers g passed xs.
Proof.
  induction xs as [|x xs IH]; intros passed; [reflexivity|]. cbn [msg_headers]. rewrite msg_unflagged.
  destruct (msg_header g passed (x_msg x)) as [[p t]| |]; cbn [bind]; [rewrite IH|..]; reflexivity.
Qed.
Lemma header_unflagged : forall g mx xs, main_header (unflagged g) mx xs = main_header g mx xs.
Proof. intros. unfold main_header. rewrite msgs_unflagged. reflexivity. Qed.
Lemma unpack_unflagged : forall g sgs es, unpack_sigs (unflagged g) sgs es = unpack_sigs g sgs es.
Proof. induction sgs as [|sg sgs IH]; intros [|e es]; try reflexivity. cbn [unpack_sigs]. rewrite IH. reflexivity. Qed.
Lemma map_res_ext : forall A B (f g : A -> res B) l, (forall a, f a = g a) -> map_res f l = map_res g l.
Proof. induction l as [|a l IH]; intros E; [reflexivity|]. cbn [map_res]. rewrite E, IH by exact E. reflexivity. Qed.
Lemma body_unflagged : forall g x, unpack_body (unflagged g) x = unpack_body g x.
Proof. intros. unfold unpack_body. rewrite unpack_unflagged. reflexivity. Qed.
Lemma msg_source_unflagged : forall g x, msg_source (unflagged g) x = msg_source g x.
Proof. intros. unfold msg_source. rewrite body_unflagged. reflexivity. Qed.
Lemma source_unflagged : forall g c xs, main_source (unflagged g) c xs = main_source g c xs.
Proof. intros. unfold main_source. rewrite (map_res_ext _ _ _ (msg_source g)) by apply msg_source_unflagged. reflexivity. Qed.

(** the flags only drop files: the texts of the others do not depend on them *)
Lemma main_flags : forall srt d drv out ci di hi low,
  (exists core fm cf inc, (forall p t, In (p, t) core -> exists x, p = out ++ "/lib/" ++ x) /\ map fst fm = [out ++ "/usr/" ++ str_tolower drv ++ "-fmon.c"] /\
     map fst cf = [out ++ "/conf/" ++ str_tolower drv ++ "-config.h"; out ++ "/conf/dbccodeconf.h"] /\ map fst inc = [out ++ "/inc/canmonitorutil.h"] /\
     forall nc ni nf, generate_main srt d (configure drv out ci di hi low nc ni nf) =
       Ok (core ++ (if nf then [] else fm) ++ (if nc then [] else cf) ++ (if ni then [] else inc))%list) \/
  (exists e, (forall l, e <> Ok l) /\ forall nc ni nf, generate_main srt d (configure drv out ci di hi low nc ni nf) = e).
Proof.
  intros. set (s := configure drv out ci di hi low false false false). unfold generate_main.
  destruct (load_messages (d_msgs d)) as [xs0|e|e]; [|right; eexists (UB e); split; [discriminate|reflexivity]|right; eexists (Throw e); split; [discriminate|reflexivity]].
  cbn [bind]. set (xs := srt ciexpr (fun x => g_id (x_msg x)) xs0).
  assert (H1 : forall nc ni nf, main_header (st_g (configure drv out ci di hi low nc ni nf)) (d_maxdlc d) xs = main_header (st_g s) (d_maxdlc d) xs)
    by (intros; rewrite <- header_unflagged; reflexivity).
  assert (H2 : forall nc ni nf, main_source (st_g (configure drv out ci di hi low nc ni nf)) (f_coreh (st_f (configure drv out ci di hi low nc ni nf))) xs = main_source (st_g s) (f_coreh (st_f s)) xs)
    by (intros; rewrite <- source_unflagged; reflexivity).
  destruct (main_header (st_g s) (d_maxdlc d) xs) as [h|e|e]; [|right; eexists (UB e); split; [discriminate|intros; rewrite H1; reflexivity]|right; eexists (Throw e); split; [discriminate|intros; rewrite H1; reflexivity]].
  destruct (main_source (st_g s) (f_coreh (st_f s)) xs) as [c|e|e]; [|right; eexists (UB e); split; [discriminate|intros; rewrite H1, H2; reflexivity]|right; eexists (Throw e); split; [discriminate|intros; rewrite H1, H2; reflexivity]].
  left. exists [(f_coreh_path (st_f s), sconcat h); (f_corec_path (st_f s), sconcat c); (f_fmonh_path (st_f s), sconcat (fmon_header (st_g s) xs))],
    [(f_fmonc_path (st_f s), sconcat (fmon_source (st_g s) (f_fmonh (st_f s)) xs))],
    [((f_confdir (st_f s) ++ "/" ++ n_drv (st_g s) ++ "-config.h")%string, sconcat (config_text (st_g s))); ((f_confdir (st_f s) ++ "/" ++ "dbccodeconf.h")%string, sconcat (dbccodeconf_text (st_g s)))],
    [((f_incdir (st_f s) ++ "/" ++ "canmonitorutil.h")%string, sconcat (canmonutil_text (st_g s)))].
  split; [|split; [|split; [|split]]].
  - intros p t I. cbn [s configure st_f f_coreh_path f_corec_path f_fmonh_path] in I. cbn [In] in I.
    destruct I as [I|[I|[I|[]]]]; injection I as <- _; rewrite !app_assoc; eexists; reflexivity.
  - cbn [s configure st_f f_fmonc_path map fst]. now rewrite !app_assoc.
  - cbn [s configure st_f st_g n_drv f_confdir map fst]. now rewrite !app_assoc.
  - cbn [s configure st_f f_incdir map fst]. now rewrite !app_assoc.
  - intros nc ni nf. rewrite H1, H2. cbn [bind]. destruct nc, ni, nf; reflexivity.
Qed.
Lemma util_flags : forall srt d drv out ci di hi low nc ni nf nodes name, util_files srt d (configure drv out ci di hi low nc ni nf) nodes name =
  util_files srt d (configure drv out ci di hi low false false false) nodes name.
Proof. reflexivity. Qed.
