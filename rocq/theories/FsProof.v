(** The file system operations of a run. *)

From Coq Require Import ZArith NArith List String Ascii Bool Lia ZifyBool.
From Verif Require Import Base Types Formatter Settings MainGen UtilGen Scanner Options FsModel App FsSpec LexLemmas.
Import ListNotations.
Open Scope string_scope.

Lemma path_eqb_eq : forall a b, path_eqb a b = true <-> a = b.
Proof. intros a b. unfold path_eqb. destruct (list_eq_dec string_dec a b); split; congruence. Qed.
Lemma path_eqb_refl : forall a, path_eqb a a = true.
Proof. intros. now apply path_eqb_eq. Qed.
Lemma path_eqb_neq : forall a b, a <> b -> path_eqb a b = false.
Proof. intros a b N. destruct (path_eqb a b) eqn:E; auto. now apply path_eqb_eq in E. Qed.

Definition is_root (p : path) : bool := match p with [] => true | ["/"] => true | _ => false end.
Lemma look_root : forall f p, is_root p = true -> look f p = Some Dir.
Proof.
  intros f [|a [|b p]]; cbn [is_root look]; auto.
  - intros H. destruct (string_dec a "/") as [->|N]; [reflexivity|]. exfalso. revert H N.
    destruct a as [|[[] [] [] [] [] [] [] []] [|]]; cbn; congruence.
  - destruct a as [|[[] [] [] [] [] [] [] []] [|]]; cbn; congruence.
Qed.
Lemma look_get : forall f p, is_root p = false -> look f p = fs_get f p.
Proof.
  intros f [|a [|b p]]; cbn [is_root look]; try discriminate;
  destruct a as [|[[] [] [] [] [] [] [] []] [|]]; cbn; congruence.
Qed.
Lemma look_put : forall f p n q, is_root p = false -> look (put f p n) q = if path_eqb q p then Some n else look f q.
Proof.
  intros f p n q R. destruct (is_root q) eqn:Q.
  - rewrite !look_root by exact Q. rewrite path_eqb_neq by congruence. reflexivity.
  - rewrite !look_get by exact Q. reflexivity.
Qed.

(** ** Directories *)

Lemma create_ok : forall f s f' b, create_directory f s = Ok (f', b) -> s <> "" /\ fs_deny f' = fs_deny f /\
  (forall q, look f' q = if path_eqb q (norm s) then Some Dir else look f q) /\
  (look f (norm s) = Some Dir /\ b = false /\ f' = f \/ look f (norm s) = None /\ b = true /\ is_dir f (parent (norm s)) = true).
Proof.
  intros f s f' b H. unfold create_directory in H. destruct (String.eqb_spec s ""); [discriminate|]. split; [exact n|].
  destruct (look f (norm s)) as [[|t]|] eqn:E; try discriminate.
  - injection H as <- <-. split; [reflexivity|]. split; [|auto]. intros q. destruct (path_eqb q (norm s)) eqn:Q; [|reflexivity]. apply path_eqb_eq in Q. now subst.
  - destruct (is_dir f (parent (norm s))) eqn:D; [|discriminate]. injection H as <- <-. split; [reflexivity|]. split; [|auto].
    intros q. apply look_put. destruct (is_root (norm s)) eqn:R; [|reflexivity]. now rewrite look_root in E.
Qed.

Lemma numbered_ok : forall fuel n f base sep f' r, numbered_loop fuel n f base sep = Ok (f', r) -> fs_deny f' = fs_deny f /\
  ((r = false /\ f' = f /\ forall i, (n <= i < n + fuel)%nat -> is_dir f (norm (base ++ sep ++ d03 i)) = true) \/
   (r = true /\ exists k, (n <= k < n + fuel)%nat /\ look f (norm (base ++ sep ++ d03 k)) = None /\
     (forall i, (n <= i < k)%nat -> is_dir f (norm (base ++ sep ++ d03 i)) = true) /\
     forall q, look f' q = if path_eqb q (norm (base ++ sep ++ d03 k)) then Some Dir else look f q)).
Proof.
  induction fuel as [|fuel IH]; intros n f base sep f' r H; cbn [numbered_loop] in H.
  - injection H as <- <-. split; [reflexivity|]. left. repeat split. intros i I. lia.
  - destruct (negb (exists_path f (base ++ sep ++ d03 n))) eqn:E.
    + destruct (create_directory f (base ++ sep ++ d03 n)) as [[g made]| |] eqn:C; cbn [bind] in H; try discriminate.
      destruct (create_ok _ _ _ _ C) as (NE & D & L & [(X & -> & ->)|(X & -> & _)]).
      * exfalso. unfold exists_path in E. rewrite X in E. destruct (String.eqb_spec (base ++ sep ++ d03 n) ""); [contradiction|discriminate].
      * injection H as <- <-. split; [exact D|]. right. split; [reflexivity|]. exists n. split; [lia|]. split; [exact X|]. split; [intros i I; lia|exact L].
    + destruct (is_dir f (norm (base ++ sep ++ d03 n))) eqn:DD.
      * destruct (IH _ _ _ _ _ _ H) as (D & [(R & -> & A)|(R & k & K & X & A & L)]); (split; [exact D|]).
        -- left. split; [exact R|]. split; [reflexivity|]. intros i I. destruct (Nat.eq_dec i n) as [->|]; [exact DD|]. apply A. lia.
        -- right. split; [exact R|]. exists k. split; [lia|]. split; [exact X|]. split; [|exact L].
           intros i I. destruct (Nat.eq_dec i n) as [->|]; [exact DD|]. apply A. lia.
      * exfalso. destruct (create_directory f (base ++ sep ++ d03 n)) as [[g made]| |] eqn:C; cbn [bind] in H; try discriminate.
        destruct (create_ok _ _ _ _ C) as (NE & D & L & [(X & -> & ->)|(X & -> & _)]).
        -- unfold is_dir in DD. rewrite X in DD. discriminate.
        -- unfold exists_path in E. rewrite X in E. destruct (String.eqb _ _); cbn in E; discriminate.
Qed.

(** ** Paths *)

Lemma comps_app : forall s rcur r, comps_from rcur (s ++ "/" ++ r) = (comps_from rcur s ++ comps_from "" r)%list.
Proof.
  induction s as [|c s IH]; intros rcur r.
  - reflexivity.
  - change (String c s ++ "/" ++ r) with (String c (s ++ "/" ++ r)). cbn [comps_from]. destruct (Ascii.eqb c "/"); rewrite IH; [apply List.app_assoc|reflexivity].
Qed.
Definition no_up (cs : list string) : Prop := ~ In ".." cs.
Lemma steps_plain : forall cs racc, no_up cs -> fold_left step cs racc = (rev cs ++ racc)%list.
Proof.
  induction cs as [|c cs IH]; intros racc N; [reflexivity|]. cbn [fold_left]. unfold step at 2.
  destruct (String.eqb_spec c "..") as [->|]; [destruct N; now left|]. rewrite IH by (intros I; apply N; now right). cbn [rev]. now rewrite <- List.app_assoc.
Qed.
Lemma norm_app : forall s r, s <> "" -> no_up (comps_from "" r) -> norm (s ++ "/" ++ r) = (norm s ++ comps_from "" r)%list.
Proof.
  intros [|c s] r N U; [congruence|]. change (String c s ++ "/" ++ r) with (String c (s ++ "/" ++ r)). unfold norm.
  change (String c (s ++ "/" ++ r)) with (String c s ++ "/" ++ r). rewrite comps_app, fold_left_app, (steps_plain _ _ U), rev_app_distr, rev_involutive. reflexivity.
Qed.
Lemma comps_word : forall s rcur, no_slash s ->
  comps_from rcur s = if String.eqb (rev_string s ++ rcur) "" || String.eqb (rev_string s ++ rcur) "." then [] else [rev_string (rev_string s ++ rcur)].
Proof.
  unfold no_slash. induction s as [|c s IH]; intros rcur H; cbn [all_chars] in H.
  - reflexivity.
  - apply andb_true_iff in H. destruct H as [C H]. cbn [comps_from]. apply negb_true_iff in C. rewrite C, IH by exact H.
    rewrite rev_cons, app_assoc. reflexivity.
Qed.
Lemma len_rev : forall s, String.length (rev_string s) = String.length s.
Proof. induction s as [|c s IH]; [reflexivity|]. rewrite rev_cons, app_len, IH. cbn. lia. Qed.
Lemma comps_name : forall s, no_slash s -> (2 <= String.length s)%nat -> comps_from "" s = [s].
Proof.
  intros s N L. rewrite comps_word by exact N. rewrite app_nil_r, rev_rev.
  destruct (String.eqb_spec (rev_string s) "") as [E|_]; [apply (f_equal String.length) in E; rewrite len_rev in E; cbn in E; lia|].
  destruct (String.eqb_spec (rev_string s) ".") as [E|_]; [apply (f_equal String.length) in E; rewrite len_rev in E; cbn in E; lia|]. reflexivity.
Qed.
Definition name_ok (s : string) : Prop := no_slash s /\ (3 <= String.length s)%nat.
Lemma name_comps : forall s, name_ok s -> comps_from "" s = [s] /\ no_up [s].
Proof. intros s [N L]. split; [apply comps_name; [exact N|lia]|]. intros [->|[]]. cbn in L. lia. Qed.
Lemma norm_file : forall out dir x, out <> "" -> name_ok dir -> name_ok x -> norm (out ++ "/" ++ dir ++ "/" ++ x) = (norm out ++ [dir; x])%list.
Proof.
  intros out dir x O D X. destruct (name_comps dir D) as [D1 D2]. destruct (name_comps x X) as [X1 X2].
  assert (E : comps_from "" (dir ++ "/" ++ x) = [dir; x]) by (rewrite (comps_app dir ""), D1, X1; reflexivity).
  rewrite norm_app, E; [reflexivity|exact O|]. rewrite E. unfold no_up in *. cbn in *. tauto.
Qed.
Lemma norm_dir : forall out dir, out <> "" -> name_ok dir -> norm (out ++ "/" ++ dir) = (norm out ++ [dir])%list.
Proof. intros out dir O D. destruct (name_comps dir D) as [D1 D2]. rewrite norm_app, D1; [reflexivity|exact O|now rewrite D1]. Qed.

(** ** Growing *)

Definition grows (f f' : fs) (qs : list path) : Prop := fs_deny f' = fs_deny f /\
  (forall q, look f' q = if existsb (path_eqb q) qs then Some Dir else look f q) /\ (forall q, In q qs -> look f q = Some Dir \/ look f q = None).
Lemma grows_nil : forall f, grows f f [].
Proof. intros f. split; [reflexivity|]. split; [reflexivity|]. intros q []. Qed.
Lemma grows_trans : forall f g h a b, grows f g a -> grows g h b -> grows f h (b ++ a).
Proof.
  intros f g h a b (D1 & L1 & C1) (D2 & L2 & C2). split; [congruence|]. split.
  - intros q. rewrite existsb_app, L2, L1. destruct (existsb (path_eqb q) b); reflexivity.
  - intros q I. apply in_app_or in I. destruct I as [I|I]; [|now apply C1]. specialize (C2 q I). rewrite L1 in C2.
    destruct (existsb (path_eqb q) a) eqn:E; [|exact C2]. apply existsb_exists in E. destruct E as (x & X & E). apply path_eqb_eq in E. subst x. now apply C1.
Qed.
Lemma create_grows : forall f s f' b, create_directory f s = Ok (f', b) -> grows f f' [norm s].
Proof.
  intros f s f' b C. destruct (create_ok _ _ _ _ C) as (_ & D & L & X). split; [exact D|]. split.
  - intros q. cbn [existsb]. rewrite orb_false_r. apply L.
  - intros q [<-|[]]. intuition.
Qed.

Definition out_settings (s : settings) (out : string) : Prop :=
  let d := st_f s in f_dir d = out /\ f_libdir d = out ++ "/lib" /\ f_usrdir d = out ++ "/usr" /\ f_incdir d = out ++ "/inc" /\
  f_confdir d = out ++ "/conf" /\ f_utildir d = out ++ "/butl".

Lemma prepared : forall f s rw f' ret o, out_settings s (out_dir o) -> o_rw o = rw -> prepare_directory f s rw = Ok (f', ret) -> out_dir o <> "" /\
  exists qs, grows f f' qs /\ (forall q, In q qs -> run_dir o q) /\ (forall x, In x sub_dirs -> In (norm (out_dir o) ++ [x])%list qs) /\
    (rw = true -> ret = true) /\
    (rw = false -> ret = true -> exists k, (k < 1000)%nat /\ look f (norm (numbered o k)) = None /\ In (norm (numbered o k)) qs /\
      forall i, (i < k)%nat -> is_dir f (norm (numbered o i)) = true) /\
    (rw = false -> ret = false -> forall i, (i < 1000)%nat -> is_dir f (norm (numbered o i)) = true).
Proof.
  intros f s rw f' ret o (E0 & E1 & E2 & E3 & E4 & E5) RW H. unfold prepare_directory in H. rewrite E0, E1, E2, E3, E4, E5 in H.
  destruct (if rw then _ else _) as [[g r]| |] eqn:B; cbn [bind] in H; try discriminate.
  destruct (create_directory g _) as [[g1 b1]| |] eqn:C1; cbn [bind fst] in H; try discriminate.
  destruct (create_directory g1 _) as [[g2 b2]| |] eqn:C2; cbn [bind fst] in H; try discriminate.
  destruct (create_directory g2 _) as [[g3 b3]| |] eqn:C3; cbn [bind fst] in H; try discriminate.
  destruct (create_directory g3 _) as [[g4 b4]| |] eqn:C4; cbn [bind fst] in H; try discriminate.
  destruct (create_directory g4 _) as [[g5 b5]| |] eqn:C5; cbn [bind fst] in H; try discriminate.
  injection H as <- <-.
  assert (BASE : out_dir o <> "" /\ exists qs, grows f g qs /\ (forall q, In q qs -> run_dir o q) /\ (rw = true -> r = true) /\
    (rw = false -> r = true -> exists k, (k < 1000)%nat /\ look f (norm (numbered o k)) = None /\ In (norm (numbered o k)) qs /\
      forall i, (i < k)%nat -> is_dir f (norm (numbered o i)) = true) /\
    (rw = false -> r = false -> forall i, (i < 1000)%nat -> is_dir f (norm (numbered o i)) = true)).
  { destruct rw.
    - destruct (exists_path f (out_dir o)) eqn:X.
      + injection B as <- <-. split; [intros E; rewrite E in X; discriminate|]. exists []. split; [apply grows_nil|]. split; [intros q []|]. split; [reflexivity|]. split; discriminate.
      + destruct (create_ok _ _ _ _ B) as (NE & D & L & [(Y & _)|(Y & -> & _)]).
        * exfalso. unfold exists_path in X. rewrite Y in X. destruct (String.eqb_spec (out_dir o) ""); [contradiction|discriminate].
        * split; [exact NE|]. exists [norm (out_dir o)]. split; [eapply create_grows; eassumption|]. split; [|split; [reflexivity|split; discriminate]].
          intros q [<-|[]]. left. auto.
    - destruct (last_char (out_dir o)) as [c|] eqn:LC; [|discriminate].
      assert (NE : out_dir o <> "") by (intros E; rewrite E in LC; discriminate). split; [exact NE|].
      assert (NU : forall k, numbered o k = out_dir o ++ (if Ascii.eqb c "/" then "" else "/") ++ d03 k) by (intros k; unfold numbered; now rewrite LC).
      destruct (numbered_ok _ _ _ _ _ _ _ B) as (D & [(-> & -> & A)|(-> & k & K & X & A & L)]).
      + exists []. split; [apply grows_nil|]. split; [intros q []|]. split; [discriminate|]. split; [discriminate|]. intros _ _ i I. rewrite NU. apply A. lia.
      + exists [norm (numbered o k)]. rewrite <- NU in X. split; [|split; [|split; [discriminate|split; [|discriminate]]]].
        * split; [exact D|]. split; [intros q; cbn [existsb]; rewrite orb_false_r, NU; apply L|]. intros q [<-|[]]. now right.
        * intros q [<-|[]]. right. left. split; [exact RW|]. exists k. split; [lia|reflexivity].
        * intros _ _. exists k. split; [lia|]. split; [exact X|]. split; [now left|]. intros i I. rewrite NU. apply A. lia. }
  destruct BASE as (NE & qs & G0 & R0 & T1 & T2 & T3). split; [exact NE|].
  assert (ND : forall x, In x sub_dirs -> norm (out_dir o ++ "/" ++ x) = (norm (out_dir o) ++ [x])%list).
  { intros x I. apply norm_dir; [exact NE|]. split; cbn in I; intuition subst; reflexivity || (cbn; lia). }
  apply create_grows in C1, C2, C3, C4, C5.
  change (out_dir o ++ "/lib") with (out_dir o ++ "/" ++ "lib") in C1. change (out_dir o ++ "/usr") with (out_dir o ++ "/" ++ "usr") in C2.
  change (out_dir o ++ "/inc") with (out_dir o ++ "/" ++ "inc") in C3. change (out_dir o ++ "/conf") with (out_dir o ++ "/" ++ "conf") in C4.
  change (out_dir o ++ "/butl") with (out_dir o ++ "/" ++ "butl") in C5.
  rewrite ND in C1, C2, C3, C4, C5 by (cbn; tauto).
  pose proof (grows_trans _ _ _ _ _ (grows_trans _ _ _ _ _ (grows_trans _ _ _ _ _ (grows_trans _ _ _ _ _ (grows_trans _ _ _ _ _ G0 C1) C2) C3) C4) C5) as G.
  cbn [app] in G. eexists. split; [exact G|]. split; [|split; [|split; [exact T1|split; [|exact T3]]]].
  - intros q I. cbn [In] in I. unfold run_dir, sub_dirs. repeat (destruct I as [<-|I]; [right; right; eexists; split; [|reflexivity]; cbn; tauto|]). exact (R0 q I).
  - intros x I. cbn [In sub_dirs] in I |- *. intuition subst; auto 8.
  - intros F T. destruct (T2 F T) as (k & K & X & I & A). exists k. split; [exact K|]. split; [exact X|]. split; [|exact A]. cbn [In]. tauto.
Qed.

(** ** Flushing *)

Definition kept_dirs (f f' : fs) : Prop := fs_deny f' = fs_deny f /\ forall q, is_dir f' q = is_dir f q.
Lemma openable_same : forall f f' p, kept_dirs f f' -> openable f' p = openable f p.
Proof.
  intros f f' p (D & I). unfold openable. rewrite D, (I (parent (norm p))).
  assert (X : match look f' (norm p) with Some Dir => false | _ => true end = match look f (norm p) with Some Dir => false | _ => true end).
  { specialize (I (norm p)). unfold is_dir in I. destruct (look f' (norm p)) as [[|]|]; destruct (look f (norm p)) as [[|]|]; congruence. }
  now rewrite X.
Qed.
Lemma openable_root : forall f p, openable f p = true -> is_root (norm p) = false /\ is_dir f (norm p) = false.
Proof.
  intros f p H. unfold openable in H. apply andb_true_iff in H. destruct H as [H _]. apply andb_true_iff in H. destruct H as [_ H]. unfold is_dir.
  split; [|destruct (look f (norm p)) as [[|]|]; congruence]. destruct (is_root (norm p)) eqn:R; [|reflexivity]. now rewrite look_root in H.
Qed.
Lemma put_kept : forall f p t, openable f p = true -> kept_dirs f (put f (norm p) (File t)).
Proof.
  intros f p t O. destruct (openable_root _ _ O) as [R D]. split; [reflexivity|]. intros q. unfold is_dir. rewrite look_put by exact R.
  destruct (path_eqb q (norm p)) eqn:E; [|reflexivity]. apply path_eqb_eq in E. subst q. unfold is_dir in D. destruct (look f (norm p)) as [[|]|]; congruence.
Qed.
Lemma kept_trans : forall f g h, kept_dirs f g -> kept_dirs g h -> kept_dirs f h.
Proof. intros f g h [D1 I1] [D2 I2]. split; [congruence|]. intros q. now rewrite I2. Qed.

(** the text that is still in the writer *)
Definition stuck (f : fs) (pend : string) (l : list (string * string)) : string :=
  fold_left (fun s pt => if openable f (fst pt) then "" else s ++ snd pt) l pend.
Lemma stuck_same : forall l f f' s, kept_dirs f f' -> stuck f' s l = stuck f s l.
Proof. unfold stuck. induction l as [|[q u] l IH]; intros f f' s K; cbn [fold_left fst snd]; [reflexivity|]. rewrite (openable_same _ _ q K). now apply IH. Qed.
Lemma flush_step : forall f pend p t, flush_file (f, pend) (p, t) = if openable f p then (put f (norm p) (File (pend ++ t)), "") else (f, pend ++ t).
Proof. reflexivity. Qed.
Lemma flush_kept : forall l f pend f' pend', flush_files (f, pend) l = (f', pend') -> kept_dirs f f' /\ pend' = stuck f pend l.
Proof.
  unfold flush_files. induction l as [|[p t] l IH]; intros f pend f' pend' H; cbn [fold_left] in H; [|change (stuck f pend ((p, t) :: l)) with (stuck f (if openable f p then "" else pend ++ t) l)].
  - injection H as <- <-. split; [split; reflexivity|reflexivity].
  - rewrite flush_step in H. destruct (openable f p) eqn:O.
    + destruct (IH _ _ _ _ H) as [K P]. pose proof (put_kept f p (pend ++ t) O) as K0. split; [eapply kept_trans; eassumption|].
      rewrite P. exact (stuck_same l _ _ "" K0).
    + apply IH in H. exact H.
Qed.
Lemma flush_other : forall l f pend f' pend' q, flush_files (f, pend) l = (f', pend') ->
  (forall p t, In (p, t) l -> openable f p = true -> q <> norm p) -> look f' q = look f q.
Proof.
  unfold flush_files. induction l as [|[p t] l IH]; intros f pend f' pend' q H N; cbn [fold_left] in H.
  - injection H as <- <-. reflexivity.
  - rewrite flush_step in H. destruct (openable f p) eqn:O.
    + rewrite (IH _ _ _ _ q H).
      * rewrite look_put by apply (openable_root _ _ O). rewrite path_eqb_neq; [reflexivity|]. apply (N p t (or_introl eq_refl) O).
      * intros p' t' I O'. rewrite (openable_same _ _ p' (put_kept f p (pend ++ t) O)) in O'. exact (N p' t' (or_intror I) O').
    + apply (IH _ _ _ _ q H). intros p' t' I. exact (N p' t' (or_intror I)).
Qed.
Lemma flush_app : forall a b st, flush_files st (a ++ b) = flush_files (flush_files st a) b.
Proof. intros. apply fold_left_app. Qed.
(** what a file holds: the texts stuck before it and its own *)
Lemma flush_at : forall a p t b f pend f' pend', flush_files (f, pend) (a ++ (p, t) :: b) = (f', pend') -> openable f p = true ->
  (forall p' t', In (p', t') b -> openable f p' = true -> norm p' <> norm p) -> look f' (norm p) = Some (File (stuck f pend a ++ t)).
Proof.
  intros a p t b f pend f' pend' H O N. rewrite flush_app in H. destruct (flush_files (f, pend) a) as [g s] eqn:A. destruct (flush_kept _ _ _ _ _ A) as [K ->].
  unfold flush_files in H. cbn [fold_left] in H. rewrite flush_step, (openable_same _ _ p K), O in H.
  assert (OG : openable g p = true) by (rewrite (openable_same _ _ p K); exact O).
  pose proof (put_kept g p (stuck f pend a ++ t) OG) as K2.
  rewrite (flush_other b _ _ _ _ (norm p) H).
  - rewrite look_put by apply (openable_root _ _ OG). now rewrite path_eqb_refl.
  - intros p' t' I O'. apply not_eq_sym. apply (N p' t' I). rewrite (openable_same _ _ p' K2), (openable_same _ _ p' K) in O'. exact O'.
Qed.
Lemma flush_all : forall l f f' pend', flush_files (f, "") l = (f', pend') -> (forall p t, In (p, t) l -> openable f p = true) ->
  forall q, look f' q = match last_text q l with Some t => Some (File t) | None => look f q end.
Proof.
  unfold flush_files. induction l as [|[p t] l IH]; intros f f' pend' H A q; cbn [fold_left last_text] in *.
  - injection H as <- <-. reflexivity.
  - pose proof (A p t (or_introl eq_refl)) as O. rewrite flush_step, O in H. change ("" ++ t) with t in H.
    rewrite (IH _ _ _ H); [|intros p' t' I; rewrite (openable_same _ _ p' (put_kept f p t O)); apply (A p' t' (or_intror I))].
    destruct (last_text q l); [reflexivity|]. rewrite look_put by apply (openable_root _ _ O). destruct (path_eqb q (norm p)); reflexivity.
Qed.
