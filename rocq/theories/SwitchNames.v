(** The header defines none of the switches, except when an entry of a value table has the name of one. *)

From Coq Require Import ZArith NArith List String Ascii Bool Lia ZifyBool Permutation.
From Verif Require Import Base Dbl CSyntax CSem CRun Types Formatter SigPrinter Writer Settings MainGen App CodecSpec MsgSpec LexLemmas PPProof BodyLemmas SourceFun
  DriverSpec DriverProof HeaderSpec HeaderProof HeaderRun NamesSpec HeaderNames StructSpec.
Import ListNotations.
Open Scope string_scope.

(** ** The last three letters of a name *)

Definition tail3 (x : string) : list ascii := firstn 3 (rev (list_ascii_of_string x)).
Lemma ascii_app : forall a b, list_ascii_of_string (a ++ b) = (list_ascii_of_string a ++ list_ascii_of_string b)%list.
Proof. induction a as [|c a IH]; intros b; [reflexivity|]. cbn [String.append list_ascii_of_string List.app]. now rewrite IH. Qed.
Lemma ascii_len : forall a, List.length (list_ascii_of_string a) = String.length a.
Proof. induction a as [|c a IH]; [reflexivity|]. cbn. now rewrite IH. Qed.
Lemma tail3_app : forall a b, (3 <= String.length b)%nat -> tail3 (a ++ b) = tail3 b.
Proof.
  intros a b L. unfold tail3. rewrite ascii_app, rev_app_distr, firstn_app.
  assert (X : (3 - List.length (rev (list_ascii_of_string b)) = 0)%nat) by (rewrite rev_length, ascii_len; lia).
  rewrite X. cbn [firstn]. now rewrite List.app_nil_r.
Qed.

Definition switch_ends : list (list ascii) := map tail3 ["SIGNAL"; "SIGFLOAT"; "ROLL"; "MONITORS"; "CANSTRUCT"; "plus"].
Definition other_tails : list (list ascii) :=
  map tail3 ["_MAJ"; "_MIN"; "_MAX_DLC_VALUE"; "_VALIDATE_DLC"; "_INITIAL_BYTE_VALUE"; "_IDE"; "_DLC"; "_CANID"; "_CYC"; "_CovFactor"; "_toS"; "_fromS"].
Lemma tails_apart : forall x, In x switch_ends -> ~ In x other_tails.
Proof.
  intros x I J. vm_compute in I. vm_compute in J.
  repeat destruct I as [<-|I]; try contradiction; repeat destruct J as [J|J]; try contradiction; discriminate J.
Qed.

Ltac tails := match goal with
  | |- In (tail3 (_ ++ (_ ++ _))) _ => rewrite <- app_assoc; tails
  | |- In (tail3 (_ ++ _)) _ => rewrite tail3_app by (cbn; lia); vm_compute; tauto end.
Lemma id_tails : forall m x, In x (id_names m) -> In (tail3 x) other_tails.
Proof.
  intros m x I. unfold id_names in I. apply in_app_iff in I as [I|I].
  - repeat destruct I as [<-|I]; try contradiction; tails.
  - destruct (0 <? g_cycle m)%Z; [|contradiction]. destruct I as [<-|[]]. tails.
Qed.
Lemma conv_tails : forall D y x, In x (conv_names D y) -> In (tail3 x) other_tails.
Proof. intros D y x I. unfold conv_names in I. repeat destruct I as [<-|I]; try contradiction; tails. Qed.

(** ** Names of the switches *)

Lemma switch_tails : forall drv g d h c x, driver drv g d h c -> In x (switches g) -> In (tail3 x) switch_ends.
Proof.
  intros drv g d h c x [RUN [DI DL] MS ND] I.
  destruct RUN as (srt & out & date & dbc & hi & low & nc & ni & nf & rest & SR & DT & DB & HI & LO & G & GM).
  assert (LU : String.length (str_toupper drv) = String.length drv) by apply len_map.
  subst g. unfold switches, configure in I. cbn [st_g n_usebits n_usesigfloat n_useroll n_usemon n_usestruct] in I.
  rewrite !tmpb_short in I by (rewrite !app_len, LU; cbn [String.length]; lia).
  repeat destruct I as [<-|I]; try contradiction; rewrite tail3_app by (cbn; lia); vm_compute; tauto.
Qed.

Lemma defines_tables : forall drv g d h c x, driver drv g d h c -> header_ok d -> In (tail3 x) switch_ends ->
  In x (defines (lines h)) -> exists msg, In msg (d_msgs d) /\ In x (entry_names msg).
Proof.
  intros drv g d h c x DR HO T I. apply (Permutation_in x (driver_names _ _ _ _ _ DR HO)) in I. pose proof (tails_apart _ T) as N.
  unfold header_names in I. apply in_app_iff in I as [I|I]; [|apply in_app_iff in I as [I|I]].
  - exfalso. apply N. repeat destruct I as [<-|I]; try contradiction; tails.
  - apply in_flat_map in I as (m & M & I). apply in_app_iff in I as [I|I]; [|eauto]. exfalso. now apply N, (id_tails m).
  - apply in_flat_map in I as (y & _ & I). exfalso. now apply N, (conv_tails (str_toupper drv) y).
Qed.
Lemma switches_free : forall drv g d h c x, driver drv g d h c -> header_ok d -> In x (switches g) ->
  (forall msg, In msg (d_msgs d) -> ~ In x (entry_names msg)) -> ~ In x (defines (lines h)).
Proof.
  intros drv g d h c x DR HO S N I. destruct (defines_tables _ _ _ _ _ _ DR HO (switch_tails _ _ _ _ _ _ DR S) I) as (m & M & J). exact (N m M J).
Qed.

(** ** The macro of C++ compilers *)

Lemma has_char_app : forall c a b, has_char c (a ++ b) = has_char c a || has_char c b.
Proof. induction a as [|d a IH]; intros b; [reflexivity|]. cbn [String.append has_char]. rewrite IH. now rewrite orb_assoc. Qed.
Lemma cpp_free : forall drv g d h c, driver drv g d h c -> header_ok d -> ~ In "__cplusplus" (defines (lines h)).
Proof.
  intros drv g d h c DR HO I. destruct (defines_tables _ _ _ _ _ "__cplusplus" DR HO ltac:(vm_compute; tauto) I) as (m & M & J).
  destruct DR as [_ _ MS _]. destruct (MS m M) as (MO & _). unfold entry_names in J. destruct (g_notempty m); [|contradiction].
  apply in_flat_map in J as (sg & S & J). apply in_map_iff in J as (p & E & _). pose proof (ok_name _ _ (mo_sigs _ MO sg S)) as ID.
  assert (U : forall t a, "cplusplus" <> a ++ "_" ++ t).
  { intros t a X. assert (H : has_char "_" "cplusplus" = false) by reflexivity. rewrite X, has_char_app in H. cbn in H. rewrite orb_true_r in H. discriminate. }
  destruct (s_name sg) as [|c1 s]; [discriminate ID|]. cbn [String.append] in E. injection E as _ E. destruct s as [|c2 s]; cbn [String.append] in E.
  - injection E as E. exact (U _ _ (eq_sym E)).
  - injection E as _ E. exact (U _ _ (eq_sym E)).
Qed.
