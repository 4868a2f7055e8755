(** Properties C37, C38 and C39: where a run writes and what the files hold. *)

From Coq Require Import ZArith NArith List String Ascii Bool Lia ZifyBool.
From Verif Require Import Base Types Formatter Settings MainGen UtilGen Scanner Options FsModel App DriverSpec FsSpec LexLemmas FsNames FsProof FsThms.
Import ListNotations.
Open Scope string_scope.

(** *** A file system with an earlier generation *)

Definition files (l : list (path * node)) (deny : list path) : fs :=
  {| fs_get := fun q => match find (fun x => path_eqb q (fst x)) l with Some (_, n) => Some n | None => None end;
     fs_deny := fun q => existsb (path_eqb q) deny |}.
Definition one_text : string :=
"BO_ 5 Std: 8 ECU
 SG_ A : 8|16@1+ (1,0) [0|0] """" GW
".
Definition earlier : fs := files [(["a.dbc"], File one_text); (["out"], Dir); (["out"; "000"], Dir); (["out"; "lib"], Dir); (["out"; "lib"; "drv.h"], File "earlier"); (["notes"], File "mine")] [].
Definition args (more : list string) : list string := (["coderdbc"; "-dbc"; "a.dbc"; "-out"; "out"; "-drvname"; "Drv"] ++ more)%list.
Definition after (more : list string) (f : fs) : res fs := run isort "now" (args more) f.
Definition text_at (r : res fs) (q : path) : option string := match r with Ok f => match look f q with Some (File t) => Some t | _ => None end | _ => None end.
Definition dir_at (r : res fs) (q : path) : bool := match r with Ok f => is_dir f q | _ => false end.

Lemma plain : forall srt o text d, sorts srt -> scan srt text = Ok d -> plain_nodes o d.
Proof. intros srt o text d SR S _ n N. exact (scan_free srt text d n SR S N). Qed.

(** ** C37.  Files that are not files of the run are kept, and without -rw a fresh numbered directory is made.  Missing:
    the files of the run itself go to the same places as those of earlier runs. *)
Theorem C37_other_files_kept_partial : forall srt now argv f f' q t, sorts srt -> run srt now argv f = Ok f' ->
  let o := get_options argv in
  look f q = Some (File t) ->
  (forall d dir name, scan srt (dbc_text f o) = Ok d -> listed o d dir name -> q <> (norm (out_dir o) ++ [dir; name])%list) ->
  look f' q = Some (File t).
Proof.
  intros srt now argv f f' q t SR R o L N. pose proof (fun d S => plain srt o (dbc_text f o) d SR S) as PN. destruct (node_dec (look f' q) (look f q)) as [E|NE]; [congruence|].
  destruct (run_changes _ _ _ _ _ R PN q NE) as (_ & d & S & [(X & _)|(dir & name & u & LI & Q & _)]); [congruence|].
  exfalso. exact (N d dir name S LI Q).
Qed.
Print Assumptions C37_other_files_kept_partial.

(** the numbered directory: the first free number, and nothing is put into it *)
Theorem C37_numbered_directory_unused : forall srt now argv f f', sorts srt -> run srt now argv f = Ok f' ->
  let o := get_options argv in
  o_rw o = false -> params_valid o = true -> exists_path f (fst (o_dbc o)) = true ->
  (exists k, (k < 1000)%nat /\ is_dir f (norm (numbered o k)) = false) ->
  exists k, (k < 1000)%nat /\ look f (norm (numbered o k)) = None /\ look f' (norm (numbered o k)) = Some Dir /\
    (forall i, (i < k)%nat -> is_dir f (norm (numbered o i)) = true) /\
    forall x r, look f' (norm (numbered o k) ++ x :: r)%list = look f (norm (numbered o k) ++ x :: r)%list.
Proof. intros srt now argv f f' SR R o. pose proof (fun d S => plain srt o (dbc_text f o) d SR S) as PN. exact (run_numbered _ _ _ _ _ R PN). Qed.
Print Assumptions C37_numbered_directory_unused.

Theorem C37_earlier_files_kept_refuted : exists argv f f' q t, run isort "now" argv f = Ok f' /\ o_rw (get_options argv) = false /\
  look f q = Some (File t) /\ look f' q <> Some (File t).
Proof.
  assert (X : exists f', after [] earlier = Ok f' /\ look f' ["out"; "lib"; "drv.h"] <> Some (File "earlier")).
  { assert (T : match text_at (after [] earlier) ["out"; "lib"; "drv.h"] with Some t => negb (String.eqb t "earlier") | None => false end = true) by (vm_compute; reflexivity).
    unfold text_at in T. destruct (after [] earlier) as [f'| |]; try discriminate. exists f'. split; [reflexivity|].
    destruct (look f' ["out"; "lib"; "drv.h"]) as [[|t]|]; try discriminate. intros E. injection E as ->. vm_compute in T. discriminate. }
  destruct X as (f' & R & N). exists (args []), earlier, f', ["out"; "lib"; "drv.h"], "earlier". split; [exact R|]. split; [reflexivity|]. split; [reflexivity|exact N].
Qed.
Print Assumptions C37_earlier_files_kept_refuted.

Example C37_example : text_at (after [] earlier) ["notes"] = Some "mine" /\ dir_at (after [] earlier) ["out"; "001"] = true /\
  text_at (after [] earlier) ["out"; "001"; "drv.h"] = None.
Proof. vm_compute. auto. Qed.

(** ** C38.  What a run changes: new directories and the files listed for its options and data base. *)
Theorem C38_only_listed_files : forall srt now argv f f' q, sorts srt -> run srt now argv f = Ok f' ->
  let o := get_options argv in
  look f' q <> look f q -> exists d, scan srt (dbc_text f o) = Ok d /\
  (look f q = None /\ look f' q = Some Dir /\ run_dir o q \/
   exists dir name t, listed o d dir name /\ In dir sub_dirs /\ q = (norm (out_dir o) ++ [dir; name])%list /\ look f' q = Some (File t)).
Proof.
  intros srt now argv f f' q SR R o NE. pose proof (fun d S => plain srt o (dbc_text f o) d SR S) as PN. destruct (run_changes _ _ _ _ _ R PN q NE) as (_ & d & S & X). exists d. split; [exact S|].
  destruct X as [X|(dir & name & t & LI & Q & T)]; [now left|right]. exists dir, name, t. split; [exact LI|]. split; [|auto].
  destruct LI; cbn; tauto.
Qed.
Print Assumptions C38_only_listed_files.

(** and all of these files are written, unless the file system refuses *)
Theorem C38_listed_files_written : forall srt now argv f f' d dir name, sorts srt -> run srt now argv f = Ok f' ->
  let o := get_options argv in
  params_valid o = true -> exists_path f (fst (o_dbc o)) = true -> scan srt (dbc_text f o) = Ok d ->
  (o_rw o = false -> exists k, (k < 1000)%nat /\ is_dir f (norm (numbered o k)) = false) ->
  listed o d dir name -> fs_deny f (norm (out_dir o) ++ [dir; name])%list = false -> is_dir f (norm (out_dir o) ++ [dir; name])%list = false ->
  exists t, look f' (norm (out_dir o) ++ [dir; name])%list = Some (File t).
Proof.
  intros srt now argv f f' d dir name SR R o. pose proof (fun d S => plain srt o (dbc_text f o) d SR S) as PN. exact (run_writes _ _ _ _ _ R PN d dir name).
Qed.
Print Assumptions C38_listed_files_written.

(** the flags drop files, the other files do not depend on them *)
Theorem C38_flags_drop_files : forall srt d drv out ci di hi low,
  (exists core fm cf inc, (forall p t, In (p, t) core -> exists x, p = out ++ "/lib/" ++ x) /\ map fst fm = [out ++ "/usr/" ++ str_tolower drv ++ "-fmon.c"] /\
     map fst cf = [out ++ "/conf/" ++ str_tolower drv ++ "-config.h"; out ++ "/conf/dbccodeconf.h"] /\ map fst inc = [out ++ "/inc/canmonitorutil.h"] /\
     forall nc ni nf, generate_main srt d (configure drv out ci di hi low nc ni nf) =
       Ok (core ++ (if nf then [] else fm) ++ (if nc then [] else cf) ++ (if ni then [] else inc))%list) \/
  (exists e, (forall l, e <> Ok l) /\ forall nc ni nf, generate_main srt d (configure drv out ci di hi low nc ni nf) = e).
Proof. exact main_flags. Qed.
Print Assumptions C38_flags_drop_files.

Example C38_example :
  map (fun q => match text_at (after ["-rw"; "-noconfig"; "-nofmon"; "-nodeutils"] earlier) q with Some _ => true | None => false end)
    [["out"; "lib"; "drv.h"]; ["out"; "lib"; "drv.c"]; ["out"; "lib"; "drv-fmon.h"]; ["out"; "inc"; "canmonitorutil.h"]; ["out"; "butl"; "gw_drv-binutil.h"]; ["out"; "butl"; "ecu_drv-binutil.c"];
     ["out"; "usr"; "drv-fmon.c"]; ["out"; "conf"; "drv-config.h"]; ["out"; "conf"; "dbccodeconf.h"]; ["out"; "butl"; "drv-binutil.h"]] =
    [true; true; true; true; true; true; false; false; false; false].
Proof. vm_compute. reflexivity. Qed.

Theorem C38_flags_keep_utilities : forall srt d drv out ci di hi low nc ni nf nodes name, util_files srt d (configure drv out ci di hi low nc ni nf) nodes name =
  util_files srt d (configure drv out ci di hi low false false false) nodes name.
Proof. exact util_flags. Qed.
Print Assumptions C38_flags_keep_utilities.

(** node names cannot lead out of the directory *)
Theorem C38_node_names_plain : forall srt text d n, sorts srt -> scan srt text = Ok d -> is_node d n -> no_slash n.
Proof. exact scan_free. Qed.
Print Assumptions C38_node_names_plain.

(** ** C39.  One writer gets texts and paths.  If every path can be opened, every file holds the last text for it and
    nothing else changes.  Missing: paths that cannot be opened, see below. *)
Theorem C39_own_text_partial : forall l f f' s, flush_files (f, "") l = (f', s) -> (forall p t, In (p, t) l -> openable f p = true) ->
  forall q, look f' q = match last_text q l with Some t => Some (File t) | None => look f q end.
Proof. exact flush_all. Qed.
Print Assumptions C39_own_text_partial.

Lemma stuck_app : forall f a b s, stuck f s (a ++ b) = stuck f (stuck f s a) b.
Proof. intros. unfold stuck. apply fold_left_app. Qed.
Lemma stuck_closed : forall f b s, (forall p t, In (p, t) b -> openable f p = false) -> stuck f s b = s ++ sconcat (map snd b).
Proof.
  unfold stuck. induction b as [|[p t] b IH]; intros s N; cbn [fold_left fst snd map].
  - unfold sconcat. cbn. now rewrite app_nil_r.
  - rewrite (N p t (or_introl eq_refl)), IH by (intros; apply (N p0 t0); now right). rewrite app_assoc. reflexivity.
Qed.

(** in general a file holds the texts of the paths directly before it that could not be opened, and then its own text *)
Theorem C39_text_with_failures_partial : forall a b p t c f f' s, flush_files (f, "") (a ++ b ++ (p, t) :: c) = (f', s) ->
  (a = [] \/ exists a0 p0 t0, a = (a0 ++ [(p0, t0)])%list /\ openable f p0 = true) ->
  (forall p' t', In (p', t') b -> openable f p' = false) -> openable f p = true ->
  (forall p' t', In (p', t') c -> openable f p' = true -> norm p' <> norm p) ->
  look f' (norm p) = Some (File (sconcat (map snd b) ++ t)).
Proof.
  intros a b p t c f f' s H A B O C. rewrite List.app_assoc in H. rewrite (flush_at _ _ _ _ _ _ _ _ H O C), stuck_app, (stuck_closed f b _ B).
  replace (stuck f "" a) with ""; [reflexivity|]. destruct A as [->|(a0 & p0 & t0 & -> & O0)]; [reflexivity|]. rewrite stuck_app. unfold stuck at 1. cbn [fold_left fst]. now rewrite O0.
Qed.
Print Assumptions C39_text_with_failures_partial.

(** whole runs: if none of the files is refused, each holds the text generated for it *)
Theorem C39_run_texts_partial : forall srt now argv f f' d, sorts srt -> run srt now argv f = Ok f' ->
  let o := get_options argv in
  params_valid o = true -> exists_path f (fst (o_dbc o)) = true -> scan srt (dbc_text f o) = Ok d ->
  (o_rw o = false -> exists k, (k < 1000)%nat /\ is_dir f (norm (numbered o k)) = false) ->
  (forall dir name, listed o d dir name -> fs_deny f (norm (out_dir o) ++ [dir; name])%list = false /\ is_dir f (norm (out_dir o) ++ [dir; name])%list = false) ->
  exists main util, run_files srt now o d = Ok (main, util) /\
  forall dir name, listed o d dir name -> exists t, last_text (norm (out_dir o) ++ [dir; name])%list (main ++ util) = Some t /\ look f' (norm (out_dir o) ++ [dir; name])%list = Some (File t).
Proof. intros srt now argv f f' d SR R o. pose proof (fun d S => plain srt o (dbc_text f o) d SR S) as PN. exact (run_texts _ _ _ _ _ R PN d). Qed.
Print Assumptions C39_run_texts_partial.

(** a header that cannot be opened ends up in the source file *)
Definition guarded : fs := files [(["a.dbc"], File one_text); (["out"], Dir)] [["out"; "lib"; "drv.h"]].
Definition no_db : dbclist := {| d_msgs := []; d_maxdlc := 0; d_verhi := 0; d_verlow := 0 |}.
Definition leaks (r : res fs) (rf : res (list (string * string) * list (string * string))) : bool :=
  match r, rf with
  | Ok f', Ok (main, util) => match main with
    | (p1, h) :: (p2, c) :: _ => String.eqb p1 "out/lib/drv.h" && String.eqb p2 "out/lib/drv.c" && negb (String.eqb h "")
      && match look f' ["out"; "lib"; "drv.h"] with None => true | _ => false end
      && match look f' ["out"; "lib"; "drv.c"] with Some (File t) => String.eqb t (h ++ c) | _ => false end
    | _ => false end
  | _, _ => false end.
Lemma leaks_ok : forall r rf, leaks r rf = true -> exists f' main util h c, r = Ok f' /\ rf = Ok (main, util) /\
  main = (("out/lib/drv.h", h) :: ("out/lib/drv.c", c) :: skipn 2 main)%list /\ h <> "" /\ look f' ["out"; "lib"; "drv.h"] = None /\ look f' ["out"; "lib"; "drv.c"] = Some (File (h ++ c)).
Proof.
  intros r rf T. unfold leaks in T. destruct r as [f'| |]; try discriminate. destruct rf as [[main util]| |]; try discriminate.
  destruct main as [|[p1 h] [|[p2 c] main]]; try discriminate. apply andb_true_iff in T as [T T5]. apply andb_true_iff in T as [T T4]. apply andb_true_iff in T as [T T3]. apply andb_true_iff in T as [T1 T2].
  apply String.eqb_eq in T1, T2. subst p1 p2. exists f', (("out/lib/drv.h", h) :: ("out/lib/drv.c", c) :: main)%list, util, h, c.
  split; [reflexivity|]. split; [reflexivity|]. split; [reflexivity|]. split; [intros ->; discriminate|].
  split; [destruct (look f' ["out"; "lib"; "drv.h"]); [discriminate|reflexivity]|].
  destruct (look f' ["out"; "lib"; "drv.c"]) as [[|t]|]; try discriminate. apply String.eqb_eq in T5. now subst t.
Qed.
Lemma guarded_leaks : leaks (run isort "now" (args ["-rw"]) guarded)
  (run_files isort "now" (get_options (args ["-rw"])) (match scan isort (dbc_text guarded (get_options (args ["-rw"]))) with Ok d => d | _ => no_db end)) = true.
Proof. vm_compute. reflexivity. Qed.
Theorem C39_own_text_refuted : exists argv f f' main util h c,
  run isort "now" argv f = Ok f' /\ run_files isort "now" (get_options argv) (match scan isort (dbc_text f (get_options argv)) with Ok d => d | _ => no_db end) = Ok (main, util) /\
  main = (("out/lib/drv.h", h) :: ("out/lib/drv.c", c) :: skipn 2 main)%list /\ h <> "" /\ look f' ["out"; "lib"; "drv.h"] = None /\ look f' ["out"; "lib"; "drv.c"] = Some (File (h ++ c)).
Proof. exists (args ["-rw"]), guarded. exact (leaks_ok _ _ guarded_leaks). Qed.
Print Assumptions C39_own_text_refuted.

Example C39_example : match flush_files (files [(["d"], Dir)] [["d"; "x"]], "") [("d/a", "1"); ("d/x", "2"); ("d/b", "3")] with
  | (f, s) => (look f ["d"; "a"], look f ["d"; "x"], look f ["d"; "b"], s) end = (Some (File "1"), None, Some (File "23"), "").
Proof. vm_compute. reflexivity. Qed.
Example C39_run_example : match scan isort one_text with Ok d => negb (match d_msgs d with [] => true | _ => false end) | _ => false end = true /\ params_valid (get_options (args ["-rw"])) = true.
Proof. vm_compute. auto. Qed.
