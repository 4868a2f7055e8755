(** What the core header declares, and when the members of a struct have different names. *)

From Coq Require Import ZArith NArith List String Ascii Bool Lia ZifyBool Permutation.
From Verif Require Import Base Dbl CSyntax CSem CRun Types Formatter SigPrinter Settings MainGen App CodecSpec MsgSpec LexLemmas BodyLemmas SourceFun
  DriverSpec DriverProof HeaderSpec CodecEnv NamesSpec StructSpec SwitchNames StructProof StructThms OutlineSpec HeaderToks.
Import ListNotations.
Open Scope string_scope.

Lemma member_toks_of : forall d, member_toks d = StructProof.toks_of d.
Proof. intros [t x [w|]]; reflexivity. Qed.
Lemma struct_of_typedef : forall e m, g_notempty m = true -> HeaderToks.struct_of (e_conf e) (e_g e) m = typedef_toks (type_name m) (members_in e m).
Proof.
  intros e m N. unfold HeaderToks.struct_of. rewrite N. unfold struct_toks, typedef_toks, members_in, macro_members, on.
  rewrite flat_map_concat_map. rewrite (map_ext _ _ member_toks_of). reflexivity.
Qed.
Lemma flat_filter : forall (A B : Type) (p : A -> bool) (f g : A -> list B) l, (forall x, p x = true -> f x = g x) -> (forall x, p x = false -> f x = []) ->
  flat_map f l = flat_map g (filter p l).
Proof.
  intros A B p f g l T F. induction l as [|x l IH]; [reflexivity|]. cbn [flat_map filter]. rewrite IH. destruct (p x) eqn:E; cbn [flat_map].
  - now rewrite T.
  - now rewrite F.
Qed.
Lemma perm_filter : forall (A : Type) (p : A -> bool) a b, Permutation a b -> Permutation (filter p a) (filter p b).
Proof.
  intros A p a b P. induction P as [|x a b P IH|x y a|a b c P IH Q JH]; cbn [filter].
  - constructor.
  - destruct (p x); [now constructor|exact IH].
  - destruct (p x), (p y); try apply Permutation_refl. constructor.
  - now transitivity (filter p b).
Qed.

Lemma outline_of : forall e, program e -> no_backslashes e -> switches_kept e ->
  exists ms, Permutation ms (with_signals (d_msgs (e_db e))) /\
    text_toks (e_conf e) (e_h e) = outline e ms /\ map fd_head (u_funs (e_unit e)) = definitions e ms.
Proof.
  intros e P NB K.
  destruct (driver_outline _ _ _ _ _ (e_conf e) (after_header (e_conf e) (e_h e)) (pr_driver _ P) (pr_header _ P) (program_splice _ P NB)
    (fun x => kept_free e x P K)) as (ms & PM & EO & ET & EC).
  assert (US : defined (n_usestruct (e_g e)) (with_defaults (after_header (e_conf e) (e_h e))) = on e n_usestruct).
  { pose proof (switch_same e (n_usestruct (e_g e)) P K ltac:(cbn; tauto)) as X. unfold e_macros, e_unit in X. now rewrite EC in X. }
  exists (with_signals ms). split; [now apply perm_filter|]. split.
  - rewrite ET. unfold outline, linkage_open, linkage_close, with_signals. f_equal. f_equal; [|f_equal].
    + apply flat_filter; intros m N; [now apply struct_of_typedef|unfold HeaderToks.struct_of; now rewrite N].
    + apply flat_filter; intros m N; unfold protos_of; rewrite N; [|reflexivity].
      unfold un_toks, pa_toks, unpack_head, pack_head, un_name, pa_name, unpack_name, pack_name, type_name, on. rewrite EO. destruct (defined (n_usestruct (e_g e)) (e_conf e)); rewrite ?EO; reflexivity.
  - unfold e_unit. rewrite EC. cbn [u_funs map]. unfold definitions, with_signals. f_equal.
    rewrite !flat_map_concat_map, concat_map, map_map, <- !flat_map_concat_map.
    apply flat_filter; intros m N; unfold msg_defs; rewrite N; [|reflexivity]. unfold un_def, pa_def. cbn [map fd_head]. rewrite US.
    unfold un_toks, pa_toks, unpack_head, pack_head, un_name, pa_name, unpack_name, pack_name, type_name. rewrite EO. now destruct (on e n_usestruct).
Qed.

(** ** Names of members *)

Definition sig_names (floats : bool) (sg : signal) : list string := s_name sg :: (if floats && negb (s_simple sg) then [s_namefloat sg] else []).
Lemma sig_names_perm : forall floats l, Permutation (flat_map (sig_names floats) l)
  (map s_name l ++ if floats then map s_namefloat (filter (fun sg => negb (s_simple sg)) l) else []).
Proof.
  intros floats. induction l as [|sg l IH]; [now destruct floats|]. cbn [flat_map map filter]. unfold sig_names at 1. cbn [List.app]. constructor.
  rewrite IH. destruct floats; cbn [andb]; [|reflexivity]. destruct (s_simple sg); cbn [negb map List.app]; [reflexivity|]. apply Permutation_middle.
Qed.
Lemma names_of_members : forall bits floats x sg, map md_name (sig_members bits floats x sg) = x :: (if floats && negb (s_simple sg) then [s_namefloat sg] else []).
Proof. intros. unfold sig_members. cbn [map raw_member md_name]. now destruct (floats && _). Qed.
Lemma signals_names : forall bits floats l, map md_name (flat_map (fun sg => sig_members bits floats (s_name sg) sg) l) = flat_map (sig_names floats) l.
Proof.
  intros. induction l as [|sg l IH]; [reflexivity|]. cbn [flat_map]. now rewrite map_app, names_of_members, IH.
Qed.

Lemma nodup_app : forall (a b : list string), NoDup (a ++ b) <-> NoDup a /\ NoDup b /\ forall x, In x a -> ~ In x b.
Proof.
  intros a b. induction a as [|x a IH]; cbn [List.app].
  - split; [intros H; split; [constructor|]; split; [exact H|intros x []]|tauto].
  - rewrite !NoDup_cons_iff, IH, in_app_iff. split.
    + intros (N & A & B & D). repeat split; auto; try tauto. intros y [<-|I]; [tauto|auto].
    + intros ((N & A) & B & D). repeat split; auto.
      * intros [I|I]; [tauto|]. exact (D x (or_introl eq_refl) I).
      * intros y I. apply D. now right.
Qed.
Lemma expt_other : forall s, "mon1" <> s ++ "_expt".
Proof. intros s E. assert (X : has_char "x" "mon1" = false) by reflexivity. rewrite E, has_char_app in X. cbn in X. rewrite orb_true_r in X. discriminate. Qed.

Lemma members_nodup : forall bits floats rolls mons msg, msg_ok msg ->
  NoDup (map md_name (all_members bits floats rolls mons msg)) <->
  (rolls && floats = true -> forall sg, roll_sig msg = Some sg -> s_simple sg = true) /\
  (mons = true -> forall sg, In sg (g_sigs msg) -> s_name sg <> "mon1" /\ (floats = true -> s_simple sg = false -> s_namefloat sg <> "mon1")).
Proof.
  intros bits floats rolls mons msg MO. unfold all_members. rewrite !map_app, signals_names.
  set (a := flat_map (sig_names floats) (g_sigs msg)).
  assert (NA : NoDup a).
  { unfold a. eapply Permutation_NoDup; [apply Permutation_sym, sig_names_perm|]. pose proof (mo_names _ MO) as N. unfold member_names, phys_names in N.
    destruct floats; [exact N|]. rewrite List.app_nil_r. now apply nodup_app in N. }
  assert (IA : forall x, In x a <-> exists sg, In sg (g_sigs msg) /\ (x = s_name sg \/ floats = true /\ s_simple sg = false /\ x = s_namefloat sg)).
  { intros x. unfold a. rewrite in_flat_map. split; intros (sg & S & H); exists sg; (split; [exact S|]).
    - destruct H as [<-|H]; [now left|right]. destruct floats, (s_simple sg); cbn in H; try contradiction. destruct H as [<-|[]]. auto.
    - unfold sig_names. destruct H as [->|(F & SI & ->)]; [now left|right]. rewrite F, SI. now left. }
  assert (RA : forall sg, roll_sig msg = Some sg -> In sg (g_sigs msg)).
  { intros sg E. unfold roll_sig in E. destruct (g_roll msg); [|discriminate]. now apply nth_error_In in E. }
  assert (EA : forall sg, roll_sig msg = Some sg -> ~ In (s_name sg ++ "_expt") a).
  { intros sg E I. destruct (mo_roll _ MO sg E) as [_ N]. apply N. unfold member_names, phys_names. apply in_app_iff. apply IA in I as (s' & S & [->|(F & SI & ->)]).
    - left. now apply in_map.
    - right. apply in_map. apply filter_In. rewrite SI. auto. }
  assert (MA : In "mon1" a <-> exists sg, In sg (g_sigs msg) /\ (s_name sg = "mon1" \/ floats = true /\ s_simple sg = false /\ s_namefloat sg = "mon1")).
  { rewrite IA. split; intros (sg & S & H); exists sg; split; auto; destruct H as [H|(F & SI & H)]; auto. }
  set (c := map md_name (if mons then _ else _)).
  assert (CC : forall x, In x c <-> mons = true /\ x = "mon1").
  { intros x. unfold c. destruct mons; cbn; split; [intros [<-|[]]; auto|intros [_ ->]; auto|intros []|intros [X _]; discriminate]. }
  assert (NC : NoDup c) by (unfold c; destruct mons; cbn; repeat constructor; intros []).
  set (b := map md_name (if rolls then _ else _)).
  rewrite nodup_app, nodup_app.
  assert (BB : forall x, In x b <-> rolls = true /\ exists sg, roll_sig msg = Some sg /\ (x = s_name sg ++ "_expt" \/ floats = true /\ s_simple sg = false /\ x = s_namefloat sg)).
  { intros x. unfold b. destruct rolls; cbn [map In]; [|split; [intros []|intros [X _]; discriminate]]. destruct (roll_sig msg) as [rs|].
    - rewrite names_of_members. cbn [In]. split.
      + intros [<-|H]; (split; [reflexivity|]); exists rs; (split; [reflexivity|]); [now left|right]. destruct floats, (s_simple rs); cbn in H; try contradiction. destruct H as [<-|[]]. auto.
      + intros (_ & sg & E & H). injection E as <-. destruct H as [->|(F & SI & ->)]; [now left|right]. rewrite F, SI. now left.
    - cbn. split; [intros []|]. intros (_ & sg & E & _). discriminate. }
  split.
  - intros (_ & (NB & _ & DC) & DA). split.
    + intros R sg E. destruct (s_simple sg) eqn:SI; [reflexivity|exfalso]. apply andb_true_iff in R as [R F].
      apply (DA (s_namefloat sg)); [apply IA; exists sg; auto 6|]. apply in_app_iff. left. apply BB. eauto 8.
    + intros M sg S. assert (X : ~ In "mon1" a) by (intros I; apply (DA _ I); apply in_app_iff; right; apply CC; auto).
      split; [intros E; apply X, MA; eauto|]. intros F SI E. apply X, MA. exists sg. auto 6.
  - intros (HR & HM).
    assert (BE : forall x, In x b -> exists sg, roll_sig msg = Some sg /\ x = s_name sg ++ "_expt").
    { intros x I. apply BB in I as (R & sg & E & [->|(F & SI & ->)]); [eauto|]. rewrite (HR ltac:(now rewrite R, F) sg E) in SI. discriminate. }
    split; [exact NA|]. split; [split; [|split; [exact NC|]]|].
    + unfold b. destruct rolls; [|constructor]. destruct (roll_sig msg) as [rs|] eqn:ER; [|constructor]. rewrite names_of_members.
      destruct (floats && negb (s_simple rs)) eqn:FS; [|repeat constructor; intros []].
      apply andb_true_iff in FS as [F SI]. rewrite (HR ltac:(now rewrite F) rs eq_refl) in SI. discriminate.
    + intros x I J. apply CC in J as [_ ->]. apply BE in I as (sg & _ & E). exact (expt_other _ E).
    + intros x I J. apply in_app_iff in J as [J|J].
      * apply BE in J as (sg & E & ->). exact (EA sg E I).
      * apply CC in J as [M ->]. apply MA in I as (sg & S & [E|(F & SI & E)]); destruct (HM M sg S) as [A B]; [exact (A E)|exact (B F SI E)].
Qed.
