(** Command line options, driver names and paths. *)

From Coq Require Import ZArith NArith List String Ascii Bool Lia.
From Verif Require Import Base Formatter Options FsModel MainGen App LexLemmas CliSpec.
Import ListNotations.
Open Scope string_scope.

(** ** Names *)

Lemma first_valid_idstart : forall c, is_first_valid c = is_idstart c.
Proof. reflexivity. Qed.
Lemma nonfirst_valid_idchar : forall c, is_nonfirst_valid c = is_idchar c.
Proof. reflexivity. Qed.

Lemma ident_snoc : forall s c, is_ident s = true -> is_idchar c = true ->
  is_ident (s ++ String c "") = true.
Proof.
  intros [|a s] c H C; [discriminate|]. simpl in *. apply andb_true_iff in H. destruct H as [A B].
  rewrite A, all_chars_app, B. simpl. now rewrite C.
Qed.

Lemma length_app1 : forall s c, String.length (s ++ String c "") = S (String.length s).
Proof. intros. rewrite app_len. simpl. lia. Qed.

Definition name_ok (s : string) : Prop := s = "" \/ is_ident s = true.

Lemma make_c_name_from_ok : forall s ret, name_ok ret -> name_ok (make_c_name_from ret s).
Proof.
  induction s as [|c s IH]; intros ret R; cbn [make_c_name_from]; auto.
  destruct ((_ && _) || (_ && _)) eqn:E.
  - apply IH. right. destruct R as [->|R].
    + simpl in E. rewrite orb_false_r in E.
      change (is_idstart c && true = true). now rewrite <- first_valid_idstart, E.
    + apply ident_snoc; auto. rewrite <- nonfirst_valid_idchar.
      unfold is_nonfirst_valid in *.
      destruct (is_first_valid c); [reflexivity|]. rewrite andb_false_r in E.
      cbn [orb] in *. apply andb_true_iff in E. tauto.
  - destruct (Ascii.eqb c " ") eqn:B.
    + apply IH. right. destruct R as [->|R]; [reflexivity|]. now apply ident_snoc.
    + apply IH. auto.
Qed.

Lemma make_c_name_ok : forall s, make_c_name s = "" \/ is_ident (make_c_name s) = true.
Proof. intros. apply make_c_name_from_ok. now left. Qed.

Lemma make_c_name_from_id : forall s ret, is_ident ret = true -> all_chars is_idchar s = true ->
  make_c_name_from ret s = ret ++ s.
Proof.
  induction s as [|c s IH]; intros ret R A; cbn [make_c_name_from].
  - now rewrite app_nil_r.
  - simpl in A. apply andb_true_iff in A. destruct A as [A1 A2].
    rewrite <- nonfirst_valid_idchar in A1. rewrite A1.
    replace (0 <? String.length ret)%nat with true
      by (destruct ret; [discriminate|reflexivity]).
    rewrite orb_true_r. rewrite IH; auto.
    + now rewrite app_assoc.
    + apply ident_snoc; auto.
Qed.

Lemma make_c_name_id : forall s, is_ident s = true -> make_c_name s = s.
Proof.
  intros [|c s] H; [discriminate|]. simpl in H. apply andb_true_iff in H. destruct H as [A B].
  unfold make_c_name. cbn [make_c_name_from String.length Nat.eqb].
  rewrite first_valid_idstart, A. cbn [andb orb String.append].
  rewrite make_c_name_from_id; auto. simpl. now rewrite A.
Qed.

(** ** Options *)

Lemma is_key_dash : forall a, is_key a = starts_dash a.
Proof. reflexivity. Qed.

Definition pair_vals (k : string) (l : list (string * string)) : list string :=
  map snd (filter (fun p => String.eqb (fst p) k) l).

Lemma collect_vals : forall k, starts_dash k = true -> forall n argv, (List.length argv <= n)%nat ->
  pair_vals k (collect_pairs argv) = values k argv.
Proof.
  intros k K. induction n as [|n IH]; intros argv H.
  { destruct argv; [reflexivity|simpl in H; lia]. }
  destruct argv as [|a r]; [reflexivity|]. simpl in H.
  cbn [collect_pairs values]. rewrite is_key_dash.
  destruct (starts_dash a) eqn:A.
  - destruct r as [|b r].
    + unfold pair_vals. simpl. destruct (String.eqb a k); reflexivity.
    + rewrite is_key_dash. destruct (starts_dash b) eqn:B.
      * specialize (IH (b :: r) ltac:(simpl in *; lia)). rewrite <- IH.
        unfold pair_vals. cbn [filter fst]. destruct (String.eqb a k); reflexivity.
      * simpl in H. specialize (IH r ltac:(lia)).
        assert (X : values k (b :: r) = values k r).
        { cbn [values]. destruct (String.eqb b k) eqn:Q; auto.
          apply String.eqb_eq in Q. subst. congruence. }
        rewrite X, <- IH. unfold pair_vals. cbn [filter fst].
        destruct (String.eqb a k); reflexivity.
  - assert (Q : String.eqb a k = false).
    { apply String.eqb_neq. intros ->. congruence. }
    rewrite Q. apply IH. lia.
Qed.

Definition valued (k : string) (l : list (string * string)) (d : string * bool) : string * bool :=
  match last_of (pair_vals k l) with Some v => (v, true) | None => d end.
Definition named (l : list (string * string)) (d : string * bool) : string * bool :=
  match last_of (pair_vals "-drvname" l) with
  | Some v => (make_c_name v, negb (String.eqb (make_c_name v) ""))
  | None => d
  end.
Definition flag (k : string) (l : list (string * string)) (d : bool) : bool :=
  d || match pair_vals k l with [] => false | _ => true end.

Lemma length0 : forall s, (String.length s =? 0)%nat = String.eqb s "".
Proof. destruct s; reflexivity. Qed.

Lemma fold_options : forall l o,
  fold_left set_option l o
  = {| o_dbc := valued "-dbc" l (o_dbc o); o_out := valued "-out" l (o_out o);
       o_drv := named l (o_drv o); o_rw := flag "-rw" l (o_rw o);
       o_nodeutils := flag "-nodeutils" l (o_nodeutils o); o_help := flag "-help" l (o_help o);
       o_noinc := flag "-noinc" l (o_noinc o); o_noconfig := flag "-noconfig" l (o_noconfig o);
       o_nofmon := flag "-nofmon" l (o_nofmon o); o_driverdir := flag "-driverdir" l (o_driverdir o);
       o_gendate := flag "-gendate" l (o_gendate o) |}.
Proof.
  induction l as [|[k v] l IH]; intros o.
  - destruct o. simpl. unfold flag, valued, named. simpl. now rewrite !orb_false_r.
  - cbn [fold_left]. rewrite IH. clear IH. destruct o as [f1 f2 f3 f4 f5 f6 f7 f8 f9 f10 f11]. unfold set_option.
    unfold valued, named, flag, pair_vals. cbn [filter fst]. cbn [o_dbc o_out o_drv o_rw
      o_nodeutils o_help o_noinc o_noconfig o_nofmon o_driverdir o_gendate].
    repeat (match goal with
     | |- context [if String.eqb k ?q then _ else _] =>
         destruct (String.eqb k q) eqn:?;
         [ match goal with E : String.eqb k q = true |- _ =>
             apply String.eqb_eq in E; subst k; cbn; rewrite ?orb_true_r, ?length0;
             repeat match goal with |- context [last_of ?z] => destruct (last_of z) end;
             reflexivity end | ]
     end).
    reflexivity.
Qed.

Definition given (k : string) (argv : list string) : bool := smem k argv.

Lemma values_given : forall k argv,
  match values k argv with [] => false | _ => true end = smem k argv.
Proof.
  intros k. induction argv as [|a r IH]; auto.
  cbn [values]. unfold smem in *. cbn [existsb]. rewrite (String.eqb_sym k a).
  destruct (String.eqb a k); auto.
Qed.

Theorem get_options_spec : forall argv,
  let value k := match last_value k argv with Some v => (v, true) | None => ("", false) end in
  get_options argv
  = {| o_dbc := value "-dbc"; o_out := value "-out";
       o_drv := match last_value "-drvname" argv with
                | Some v => (make_c_name v, negb (String.eqb (make_c_name v) ""))
                | None => ("", false)
                end;
       o_rw := smem "-rw" argv; o_nodeutils := smem "-nodeutils" argv;
       o_help := smem "-help" argv; o_noinc := smem "-noinc" argv;
       o_noconfig := smem "-noconfig" argv; o_nofmon := smem "-nofmon" argv;
       o_driverdir := smem "-driverdir" argv; o_gendate := smem "-gendate" argv |}.
Proof.
  intros argv value. subst value. unfold get_options. rewrite fold_options.
  unfold valued, named, flag, last_value. cbn [no_options o_dbc o_out o_drv o_rw
      o_nodeutils o_help o_noinc o_noconfig o_nofmon o_driverdir o_gendate orb].
  assert (C : forall k, starts_dash k = true -> pair_vals k (collect_pairs argv) = values k argv)
    by (intros k K; exact (collect_vals k K _ argv (le_n _))).
  rewrite !C by reflexivity.
  rewrite !values_given. reflexivity.
Qed.

(** reordering *)
Lemma values_cons : forall k a r,
  values k (a :: r) = ((if String.eqb a k then
     [match r with b :: _ => if starts_dash b then "" else b | [] => "" end] else []) ++ values k r)%list.
Proof. intros. cbn [values]. destruct (String.eqb a k); reflexivity. Qed.

Definition headed (b : list string) : Prop :=
  match b with [] => True | x :: _ => starts_dash x = true end.

Lemma values_app : forall k a b, headed b -> values k (a ++ b) = (values k a ++ values k b)%list.
Proof.
  intros k a b H. induction a as [|x a IH]; auto.
  rewrite <- List.app_comm_cons, !values_cons, IH, List.app_assoc. f_equal. f_equal.
  destruct (String.eqb x k); auto. f_equal.
  destruct a; [|reflexivity]. simpl. destruct b; auto. simpl in H. now rewrite H.
Qed.

Lemma values_group : forall k g q, is_group g q -> starts_dash k = true ->
  k <> q -> values k g = [].
Proof.
  intros k g q [Q [->|(v & V & ->)]] K N; rewrite !values_cons.
  - apply not_eq_sym in N. apply String.eqb_neq in N. rewrite N. reflexivity.
  - apply not_eq_sym in N. apply String.eqb_neq in N. rewrite N.
    replace (String.eqb v k) with false. reflexivity.
    symmetry. apply String.eqb_neq. intros ->. congruence.
Qed.

Lemma group_headed : forall g k r, is_group g k -> headed (g ++ r).
Proof. intros g k r [K [->|(v & V & ->)]]; exact K. Qed.

Lemma values_swap : forall k a g1 k1 g2 k2 b, starts_dash k = true ->
  is_group g1 k1 -> is_group g2 k2 -> k1 <> k2 -> headed b ->
  values k (a ++ g1 ++ g2 ++ b) = values k (a ++ g2 ++ g1 ++ b).
Proof.
  intros k a g1 k1 g2 k2 b K G1 G2 N H.
  rewrite !(values_app k a) by (eapply group_headed; eauto).
  rewrite (values_app k g1 (g2 ++ b)), (values_app k g2 (g1 ++ b))
    by (eapply group_headed; eauto).
  rewrite (values_app k g1 b), (values_app k g2 b) by auto.
  destruct (String.eqb_spec k k1) as [->|X].
  - rewrite (values_group k1 g2 k2) by auto. reflexivity.
  - rewrite (values_group k g1 k1) by auto. reflexivity.
Qed.

Lemma smem_swap : forall k (a b c d : list string),
  smem k (a ++ b ++ c ++ d) = smem k (a ++ c ++ b ++ d).
Proof.
  intros. unfold smem. rewrite !existsb_app.
  destruct (existsb _ a), (existsb _ b), (existsb _ c); reflexivity.
Qed.

Theorem get_options_swap : forall a g1 k1 g2 k2 b,
  is_group g1 k1 -> is_group g2 k2 -> k1 <> k2 ->
  match b with [] => True | x :: _ => starts_dash x = true end ->
  get_options (a ++ g1 ++ g2 ++ b) = get_options (a ++ g2 ++ g1 ++ b).
Proof.
  intros. rewrite !get_options_spec. unfold last_value.
  rewrite !(values_swap _ a g1 k1 g2 k2 b) by auto.
  rewrite !(smem_swap _ a g1 g2 b). reflexivity.
Qed.

Definition known_options : list string :=
  ["-dbc"; "-out"; "-drvname"; "-rw"; "-nodeutils"; "-help"; "-noinc"; "-noconfig"; "-nofmon";
   "-driverdir"; "-gendate"].

Theorem get_options_unknown : forall a g k b,
  is_group g k -> ~ In k known_options ->
  match b with [] => True | x :: _ => starts_dash x = true end ->
  get_options (a ++ g ++ b) = get_options (a ++ b).
Proof.
  intros a g k b G U H. rewrite !get_options_spec. unfold last_value.
  assert (V : forall q, In q known_options -> starts_dash q = true ->
                values q (a ++ g ++ b) = values q (a ++ b)).
  { intros q I Q. rewrite !(values_app q a) by (auto; eapply group_headed; eauto).
    rewrite (values_app q g) by auto. rewrite (values_group q g k); auto.
    intros ->. contradiction. }
  assert (M : forall q, In q known_options -> starts_dash q = true ->
                smem q (a ++ g ++ b) = smem q (a ++ b)).
  { intros q I Q. rewrite <- !values_given. now rewrite V. }
  unfold known_options in V, M. simpl In in V, M.
  rewrite !V, !M by intuition. reflexivity.
Qed.

(** ** Refused names *)

Theorem run_needs_name : forall srt now argv f,
  match last_value "-drvname" argv with Some v => make_c_name v = "" | None => True end ->
  run srt now argv f = Ok f.
Proof.
  intros srt now argv f H. unfold run, params_valid. rewrite get_options_spec.
  cbn [o_dbc o_out o_drv o_help].
  destruct (last_value "-drvname" argv) as [v|].
  - rewrite H. cbn [snd]. rewrite andb_false_r. reflexivity.
  - cbn [snd]. rewrite andb_false_r. reflexivity.
Qed.

Theorem valid_name_ident : forall argv, params_valid (get_options argv) = true ->
  is_ident (fst (o_drv (get_options argv))) = true.
Proof.
  intros argv. rewrite get_options_spec. unfold params_valid. cbn [o_dbc o_out o_drv o_help].
  destruct (last_value "-drvname" argv) as [v|]; cbn [snd fst].
  - destruct (make_c_name_ok v) as [E|E]; [|auto].
    rewrite E. cbn. rewrite andb_false_r. discriminate.
  - rewrite andb_false_r. discriminate.
Qed.

(** ** Paths *)

Lemma is_sep_char : forall c, is_sep c = sep_char c.
Proof. reflexivity. Qed.

Lemma last_char_split : forall s c, last_char s = Some c -> exists q, s = q ++ String c "".
Proof.
  induction s as [|a s IH]; intros c H; [discriminate|].
  cbn [last_char] in H. destruct s as [|b s].
  - injection H as ->. exists "". reflexivity.
  - destruct (IH _ H) as [q E]. exists (String a q). rewrite E. reflexivity.
Qed.

Ltac fin := repeat match goal with |- _ /\ _ => split end; auto;
  first [ left; split; auto; fail | right; split; auto; fail
        | left; match goal with d : ascii |- _ => exists d; split; auto; fail end ].

Theorem combine_path_spec : forall p f, exists q s g,
  combine_path p f = q ++ String s g /\ sep_char s = true /\
  ((ends_sep p = true /\ p = q ++ String s "") \/ (ends_sep p = false /\ p = q)) /\
  ((exists s', begins_sep f = true /\ f = String s' g) \/ (begins_sep f = false /\ f = g)).
Proof.
  intros p f. unfold combine_path, ends_sep, begins_sep.
  destruct (last_char p) as [c|] eqn:L.
  - change (is_sep c) with (sep_char c). destruct (sep_char c) eqn:S.
    + destruct (last_char_split _ _ L) as [q E].
      destruct f as [|d f]; cbn [first_char].
      * exists q, c, "". cbn [andb negb]. rewrite app_nil_r. fin.
      * change (is_sep d) with (sep_char d). destruct (sep_char d) eqn:D; cbn [andb negb].
        -- exists q, c, f. split.
           ++ replace (substring 1 (String.length (String d f)) (String d f)) with f.
              now rewrite E, app_assoc.
              cbn [substring String.length]. symmetry. apply substring_0_all. lia.
           ++ fin.
        -- exists q, c, (String d f). split; [now rewrite E, app_assoc|].
           fin.
    + destruct f as [|d f]; cbn [first_char andb negb].
      * exists p, "/"%char, "". fin.
      * change (is_sep d) with (sep_char d). destruct (sep_char d) eqn:D; cbn [andb negb].
        -- exists p, d, f. fin.
        -- exists p, "/"%char, (String d f). fin.
  - destruct f as [|d f]; cbn [first_char andb negb].
    + exists p, "/"%char, "". fin.
    + change (is_sep d) with (sep_char d). destruct (sep_char d) eqn:D; cbn [andb negb].
      * exists p, d, f. fin.
      * exists p, "/"%char, (String d f). fin.
Qed.

Lemma all_chars_rev : forall p s, all_chars p (rev_string s) = all_chars p s.
Proof.
  induction s; auto. rewrite rev_cons, all_chars_app, IHs. simpl.
  rewrite andb_true_r. apply andb_comm.
Qed.

Lemma extract_from : forall s rcur, all_chars (fun c => negb (sep_char c)) rcur = true ->
  let r := extract_file_name_from rcur s in
  all_chars (fun c => negb (sep_char c)) r = true /\
  exists pre, rev_string rcur ++ s = pre ++ r /\ (pre = "" \/ ends_sep pre = true).
Proof.
  induction s as [|c s IH]; intros rcur A; cbn [extract_file_name_from].
  - split; [now rewrite all_chars_rev|]. exists "". rewrite app_nil_r. auto.
  - rewrite is_sep_char. destruct (sep_char c) eqn:S.
    + destruct (IH "" eq_refl) as (A1 & pre & E & P). split; auto.
      exists (rev_string rcur ++ String c pre). split.
      * rewrite app_assoc. cbn [String.append]. rewrite <- E. reflexivity.
      * right. unfold ends_sep. destruct P as [->|P].
        -- rewrite last_char_app by discriminate. cbn [last_char]. exact S.
        -- unfold ends_sep in P. destruct pre; [discriminate|].
           rewrite last_char_app by discriminate. exact P.
    + destruct (IH (String c rcur)) as (A1 & pre & E & P).
      { simpl. now rewrite S, A. }
      split; auto. exists pre. split; auto. rewrite <- E, rev_cons, app_assoc. reflexivity.
Qed.

Theorem extract_file_name_spec : forall s,
  all_chars (fun c => negb (sep_char c)) (extract_file_name s) = true /\
  exists pre, s = pre ++ extract_file_name s /\ (pre = "" \/ ends_sep pre = true).
Proof. intros s. exact (extract_from s "" eq_refl). Qed.
