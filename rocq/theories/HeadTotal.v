(** When the generation of the header ends normally. *)

From Coq Require Import ZArith NArith List String Ascii Bool Lia ZifyBool.
From Coq Require Import Floats.SpecFloat.
From Verif Require Import Base Dbl CSyntax CSem CRun Types Formatter SigPrinter Writer Settings StaticText MainGen App
  CodecSpec MsgSpec LexLemmas DriverSpec DriverProof HeaderProof CodecEnv StructSpec.
Import ListNotations.
Open Scope string_scope.

Lemma field_width : forall sg extra x bits, (0 <= s_len sg)%Z -> String.length x = (String.length (s_name sg) + extra)%nat ->
  (String.length ("  " ++ print_type (s_typero sg) ++ " " ++ x ++ (if bits && (s_len sg <? 8)%Z then str_print (" : " ++ decZ (s_len sg)) else "") ++ ";")
   = if bits then decl_width sg extra else decl_width sg extra - (if (s_len sg <? 8)%Z then 4 else 0))%nat.
Proof.
  intros sg extra x bits L E. unfold decl_width. rewrite !app_len, E. cbn [String.length]. destruct (Z.ltb_spec (s_len sg) 8) as [H|H].
  - assert (D : String.length (str_print (" : " ++ decZ (s_len sg))) = 4%nat).
    { assert (C : In (s_len sg) [0; 1; 2; 3; 4; 5; 6; 7]%Z) by (cbn; lia).
      repeat (destruct C as [<-|C]; [reflexivity|]). contradiction. }
    destruct bits; cbn [andb]; [rewrite D|cbn [String.length]]; lia.
  - rewrite andb_false_r. cbn [String.length]. destruct bits; lia.
Qed.

Lemma decl_ok : forall sg extra nm bits w, (0 <= s_len sg)%Z -> String.length (s_name nm) = (String.length (s_name sg) + extra)%nat ->
  s_typero nm = s_typero sg -> s_len nm = s_len sg -> (decl_width sg extra <= w + 16)%nat -> exists t, field_decl nm bits w = Ok t.
Proof.
  intros sg extra nm bits w L E T S H. unfold field_decl. cbv zeta. rewrite T, S, (field_width sg extra) by auto.
  match goal with |- context [if ?b then Throw _ else _] => destruct b eqn:B end; [|eauto].
  exfalso. apply Nat.ltb_lt in B. destruct bits; lia.
Qed.
Lemma decl_throws : forall sg extra nm w, (0 <= s_len sg)%Z -> String.length (s_name nm) = (String.length (s_name sg) + extra)%nat ->
  s_typero nm = s_typero sg -> s_len nm = s_len sg -> (w + 16 < decl_width sg extra)%nat -> field_decl nm true w = Throw "std::length_error".
Proof.
  intros sg extra nm w L E T S H. unfold field_decl. cbv zeta. rewrite T, S, (field_width sg extra) by auto.
  match goal with |- context [if ?b then Throw _ else _] => destruct b eqn:B end; [reflexivity|].
  exfalso. apply Nat.ltb_ge in B. lia.
Qed.

Lemma info_total : forall sg, ints_fit sg -> exists t, info_comment sg = Ok t.
Proof.
  intros sg H. unfold info_comment. cbv zeta. destruct (s_double sg) eqn:D.
  - destruct (deqb (s_offset sg) (S754_zero false)), (deqb (s_factor sg) (dbl_of_Z 1)); cbn [bind]; eauto.
  - destruct (s_simple sg) eqn:S; [cbn [bind]; eauto|]. destruct (H S D) as (a & b & A & B). rewrite A, B.
    destruct (deqb (s_offset sg) (S754_zero false)), (deqb (s_factor sg) (dbl_of_Z 1)); cbn [bind]; eauto.
Qed.
Lemma macro_total : forall sg d, s_simple sg = false -> ints_fit sg -> exists t, print_physical_to_raw sg d = Ok t.
Proof.
  intros sg d S H. unfold print_physical_to_raw. cbv zeta. destruct (s_double sg) eqn:D; [eauto|].
  destruct (H S D) as (a & b & A & B). rewrite A, B. cbn [bind].
  destruct (deqb (s_offset sg) _); [eauto|]. destruct (deqb (s_factor sg) _); eauto.
Qed.
Lemma macros_total : forall g m sgs passed, (forall sg, In sg sgs -> ints_fit sg) -> exists p t, sig_macros g m passed sgs = Ok (p, t).
Proof.
  intros g m. induction sgs as [|sg sgs IH]; intros passed H; cbn [sig_macros]; [eauto|].
  assert (IH' : forall p, exists p' t, sig_macros g m p sgs = Ok (p', t)) by (intros p; apply IH; intros s I; apply H; now right).
  destruct (s_simple sg) eqn:S; cbn [orb].
  - cbn [bind]. destruct (IH' passed) as (p' & t & ->). cbn [bind]. eauto.
  - destruct (smem (s_name sg) passed); cbn [bind].
    + destruct (IH' passed) as (p' & t & ->). cbn [bind]. eauto.
    + destruct (macro_total sg (n_DRV g) S (H sg (or_introl eq_refl))) as (t0 & ->). cbn [bind].
      destruct (IH' (s_name sg :: passed)) as (p' & t & ->). cbn [bind]. eauto.
Qed.

Lemma max_name_acc : forall sgs a, fold_left (fun acc sg => Nat.max acc (String.length (s_name sg))) sgs a
  = Nat.max a (list_max (map (fun sg => String.length (s_name sg)) sgs)).
Proof. induction sgs as [|s r IH]; intros a; cbn [fold_left map list_max fold_right]; [lia|]. rewrite IH. cbn [list_max fold_right]. unfold list_max. lia. Qed.
Lemma column_width : forall m, column m = (max_name_len (g_sigs m) + 16)%nat.
Proof. intros m. unfold column, max_name_len. rewrite max_name_acc. change (list_max (27%nat :: ?l)) with (Nat.max 27 (list_max l)). lia. Qed.
Lemma name_below : forall m sg, In sg (g_sigs m) -> (String.length (s_name sg) <= max_name_len (g_sigs m))%nat.
Proof.
  intros m sg I. unfold max_name_len. rewrite max_name_acc.
  assert (F : Forall (fun k => k <= list_max (map (fun sg => String.length (s_name sg)) (g_sigs m)))%nat (map (fun sg => String.length (s_name sg)) (g_sigs m)))
    by now apply list_max_le.
  rewrite Forall_forall in F. specialize (F (String.length (s_name sg)) (in_map _ _ _ I)). lia.
Qed.

Lemma own_field : forall g m bits sg, In sg (g_sigs m) -> (0 <= s_len sg)%Z -> ints_fit sg ->
  exists t, sig_struct_field g bits (max_name_len (g_sigs m)) sg = Ok t.
Proof.
  intros g m bits sg I L H. unfold sig_struct_field.
  destruct (decl_ok sg 0 sg bits (max_name_len (g_sigs m))) as (t & ->); auto.
  - pose proof (name_below m sg I). unfold decl_width.
    assert (T : (String.length (print_type (s_typero sg)) <= 8)%nat) by (destruct (s_typero sg); cbn; lia). destruct (s_len sg <? 8)%Z; lia.
  - cbn [bind]. destruct (info_total sg H) as (i & ->). cbn [bind]. eauto.
Qed.
Lemma map_res_total : forall A B (f : A -> res B) l, (forall a, In a l -> exists b, f a = Ok b) -> exists r, map_res f l = Ok r.
Proof.
  induction l as [|a l IH]; intros H; cbn [map_res]; [eauto|]. destruct (H a (or_introl eq_refl)) as (b & ->). cbn [bind].
  destruct IH as (r & ->); [intros x X; apply H; now right|]. cbn [bind]. eauto.
Qed.

Definition sigs_fine (m : message) : Prop := forall sg, In sg (g_sigs m) -> (0 <= s_len sg)%Z /\ ints_fit sg.

Lemma expt_ints : forall sg, ints_fit sg -> ints_fit (expt_sig sg).
Proof. intros sg H. exact H. Qed.
Lemma fields_total : forall g m bits, sigs_fine m -> counter_fits m -> exists t, struct_fields g m bits (max_name_len (g_sigs m)) = Ok t.
Proof.
  intros g m bits F C. unfold struct_fields. destruct (map_res_total _ _ (sig_struct_field g bits (max_name_len (g_sigs m))) (g_sigs m)) as (fs & ->).
  { intros sg I. destruct (F sg I). now apply own_field. }
  cbn [bind]. destruct (roll_sig m) as [rs|] eqn:R; [|cbn [bind]; eauto].
  destruct (F rs (roll_in _ _ R)) as [L H]. specialize (C rs R). rewrite column_width in C. unfold sig_struct_field.
  destruct (decl_ok rs 5 (expt_sig rs) bits (max_name_len (g_sigs m))) as (t & ->); auto.
  - cbn [expt_sig s_name]. rewrite app_len. reflexivity.
  - cbn [bind]. destruct (info_total (expt_sig rs) (expt_ints _ H)) as (i & ->). cbn [bind]. eauto.
Qed.
Lemma fields_throw : forall g m rs, sigs_fine m -> roll_sig m = Some rs -> (column m < decl_width rs 5)%nat ->
  struct_fields g m true (max_name_len (g_sigs m)) = Throw "std::length_error".
Proof.
  intros g m rs F R C. unfold struct_fields. destruct (map_res_total _ _ (sig_struct_field g true (max_name_len (g_sigs m))) (g_sigs m)) as (fs & ->).
  { intros sg I. destruct (F sg I). now apply own_field. }
  cbn [bind]. rewrite R. destruct (F rs (roll_in _ _ R)) as [L H]. rewrite column_width in C. unfold sig_struct_field.
  rewrite (decl_throws rs 5 (expt_sig rs)); auto. cbn [expt_sig s_name]. rewrite app_len. reflexivity.
Qed.

Lemma msg_total : forall g passed m, (g_notempty m = true -> sigs_fine m /\ counter_fits m) -> exists p t, msg_header g passed m = Ok (p, t).
Proof.
  intros g passed m H. unfold msg_header. destruct (g_notempty m); cbn [negb]; [|eauto]. destruct (H eq_refl) as [F C].
  destruct (macros_total g m (g_sigs m) passed) as (p & t & ->); [intros sg I; apply F; auto|]. cbn [bind].
  destruct (fields_total g m true F C) as (t1 & ->). cbn [bind]. destruct (fields_total g m false F C) as (t2 & ->). cbn [bind]. eauto.
Qed.
Lemma msg_throw : forall g passed m rs, g_notempty m = true -> sigs_fine m -> roll_sig m = Some rs -> (column m < decl_width rs 5)%nat ->
  msg_header g passed m = Throw "std::length_error".
Proof.
  intros g passed m rs N F R C. unfold msg_header. rewrite N. cbn [negb].
  destruct (macros_total g m (g_sigs m) passed) as (p & t & ->); [intros sg I; apply F; auto|]. cbn [bind].
  now rewrite (fields_throw g m rs F R C).
Qed.
Lemma fits_dec : forall m, counter_fits m \/ exists rs, roll_sig m = Some rs /\ (column m < decl_width rs 5)%nat.
Proof.
  intros m. unfold counter_fits. destruct (roll_sig m) as [rs|]; [|left; intros; discriminate].
  destruct (Nat.leb_spec (decl_width rs 5) (column m)); [left; intros r E; congruence|right; eauto].
Qed.

Lemma msgs_result : forall g xs passed, (forall x, In x xs -> g_notempty (x_msg x) = true -> sigs_fine (x_msg x)) ->
  ((forall x, In x xs -> g_notempty (x_msg x) = true -> counter_fits (x_msg x)) /\ exists t, msg_headers g passed xs = Ok t) \/
  ((exists x, In x xs /\ g_notempty (x_msg x) = true /\ ~ counter_fits (x_msg x)) /\ msg_headers g passed xs = Throw "std::length_error").
Proof.
  intros g. induction xs as [|x xs IH]; intros passed F; cbn [msg_headers]; [left; split; [intros x []|eauto]|].
  assert (IH' : forall p, _) by (intros p; apply (IH p); intros y Y; apply F; now right). clear IH.
  destruct (g_notempty (x_msg x)) eqn:N.
  - destruct (fits_dec (x_msg x)) as [C|(rs & R & C)].
    + destruct (msg_total g passed (x_msg x)) as (p & t & ->); [intros _; split; [apply F; auto; now left|exact C]|]. cbn [bind].
      destruct (IH' p) as [[A (t' & ->)]|[(y & Y1 & Y2 & Y3) ->]]; cbn [bind].
      * left. split; [|eauto]. intros y [<-|Y] NE; auto.
      * right. split; [|reflexivity]. exists y. split; [now right|auto].
    + right. rewrite (msg_throw g passed (x_msg x) rs); auto; [|apply F; auto; now left]. split; [|reflexivity].
      exists x. split; [now left|]. split; [exact N|]. intros H. specialize (H rs R). lia.
  - destruct (msg_total g passed (x_msg x)) as (p & t & ->); [congruence|]. cbn [bind].
    destruct (IH' p) as [[A (t' & ->)]|[(y & Y1 & Y2 & Y3) ->]]; cbn [bind].
    + left. split; [|eauto]. intros y [<-|Y] NE; [congruence|auto].
    + right. split; [|reflexivity]. exists y. split; [now right|auto].
Qed.

Theorem header_total : forall g mx xs, (forall x, In x xs -> g_notempty (x_msg x) = true -> forall sg, In sg (g_sigs (x_msg x)) -> (0 <= s_len sg)%Z /\ ints_fit sg) ->
  ((forall x, In x xs -> g_notempty (x_msg x) = true -> counter_fits (x_msg x)) /\ exists t, main_header g mx xs = Ok t) \/
  ((exists x, In x xs /\ g_notempty (x_msg x) = true /\ ~ counter_fits (x_msg x)) /\ main_header g mx xs = Throw "std::length_error").
Proof.
  intros g mx xs F. unfold main_header. destruct (msgs_result g xs [] F) as [[A (t & ->)]|[A ->]]; cbn [bind]; eauto.
Qed.
