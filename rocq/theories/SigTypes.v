(** The types GetSigType chooses. *)

From Coq Require Import ZArith NArith List String Ascii Bool Lia ZifyBool.
From Coq Require Import Floats.SpecFloat.
From Verif Require Import Base Dbl CSyntax CSem Types LineParser CodecSpec ConvSpec ScanThms.
Import ListNotations.
Open Scope Z_scope.

Lemma bind_inv : forall A B (r : res A) (f : A -> res B) b, bind r f = Ok b -> exists a, r = Ok a /\ f a = Ok b.
Proof. intros A B [a| |] f b E; try discriminate E. exists a. auto. Qed.

Lemma int_val_trunc : forall d z, int_val d z -> dtrunc d = Some z.
Proof.
  intros [s|s| |s m e] z H; cbn [int_val] in H; try contradiction; cbn [dtrunc].
  - now rewrite H.
  - destruct (0 <=? e) eqn:E.
    + destruct e as [|q|q]; [| |lia]; destruct s; rewrite H; f_equal; rewrite ?Pos2Z.opp_pos; lia.
    + destruct e as [|q|q]; try lia. cbn [Z.opp] in H. assert (P : 0 < 2 ^ Z.pos q) by lia. f_equal. destruct s.
      * assert (A : Z.pos m = (- z) * 2 ^ Z.pos q) by lia. rewrite A, Z.div_mul by lia. lia.
      * rewrite H, Z.div_mul by lia. reflexivity.
Qed.

Lemma cast_i64_int : forall d z v, int_val d z -> cast_i64 d = Ok v -> v = z.
Proof.
  intros d z v H E. unfold cast_i64 in E. rewrite (int_val_trunc _ _ H) in E. destruct (_ && _); [|discriminate]. congruence.
Qed.
Lemma i64_inv : forall z v, i64 z = Ok v -> v = z /\ - 2 ^ 63 <= z < 2 ^ 63.
Proof. intros z v E. unfold i64 in E. destruct (_ && _) eqn:B; [|discriminate]. split; [congruence|lia]. Qed.

(** *** The length *)
Definition top_of (signed : bool) (len : Z) : res Z := cast_i64 (dsub (pow2 (if signed then len - 1 else len)%Z) (dbl_of_Z 1)).
Definition ro_of (signed : bool) (m : Z) : cty :=
  if signed then pick_type m 0 signed_types max_signed I8 else pick_type m 0 unsig_types max_unsig U8.

(** everything about one length *)
Definition good_len (signed : bool) (len : Z) : bool :=
  match top_of signed len with
  | Ok m => let n := if signed then len - 1 else len in
            let t := ro_of signed m in
            (2 ^ n - 1 <=? m) && (m <=? 2 ^ n) && (len <=? (if signed then 63 else 62)) && (len <=? width t) && Bool.eqb (is_signed t) signed
            && ((width t =? 8) || (width t / 2 <? len))
  | _ => (if signed then 63 else 62) <? len
  end.
Lemma good_lens : forallb (fun n => good_len false (Z.of_nat n) && good_len true (Z.of_nat n)) (seq 1 255) = true.
Proof. vm_compute. reflexivity. Qed.
Lemma good_at : forall s len, 1 <= len <= 255 -> good_len s len = true.
Proof.
  intros s len H. pose proof good_lens as G. rewrite forallb_forall in G. specialize (G (Z.to_nat len)).
  rewrite Z2Nat.id in G by lia. assert (I : In (Z.to_nat len) (seq 1 255)) by (apply in_seq; lia). specialize (G I).
  apply andb_true_iff in G as [A B]. now destruct s.
Qed.

Lemma small_width : forall s t, width t <> 8 -> is_signed t = s -> forall t', is_signed t' = s -> width t' < width t -> width t' <= width t / 2.
Proof. intros s t A B t' C D. destruct t, t'; cbn in *; try congruence; try lia. Qed.

Lemma carry_width : forall s len t, 1 <= len -> is_signed t = s -> (forall v, carries s len v -> can_hold t v) -> len <= width t.
Proof.
  intros s len t L S H. destruct (Z.le_gt_cases len (width t)) as [|G]; auto. exfalso. unfold carries, can_hold in H. rewrite S in H.
  assert (W : 8 <= width t) by (destruct t; cbn; lia). destruct s.
  - specialize (H (2 ^ (len - 1) - 1)). pose proof (Z.pow_pos_nonneg 2 (len - 1)). pose proof (Z.pow_pos_nonneg 2 (width t - 1)).
    assert (2 ^ (width t - 1) <= 2 ^ (len - 2)) by (apply Z.pow_le_mono_r; lia).
    assert (2 ^ (len - 1) = 2 * 2 ^ (len - 2)) by (replace (len - 1) with (Z.succ (len - 2)) by lia; rewrite Z.pow_succ_r; lia). lia.
  - specialize (H (2 ^ len - 1)). pose proof (Z.pow_pos_nonneg 2 len). pose proof (Z.pow_pos_nonneg 2 (width t)).
    assert (2 ^ width t <= 2 ^ (len - 1)) by (apply Z.pow_le_mono_r; lia).
    assert (2 ^ len = 2 * 2 ^ (len - 1)) by (replace len with (Z.succ (len - 1)) at 1 by lia; rewrite Z.pow_succ_r; lia). lia.
Qed.
Lemma width_carry : forall s len t, 1 <= len -> is_signed t = s -> len <= width t -> forall v, carries s len v -> can_hold t v.
Proof.
  intros s len t L S W v H. unfold carries in H. unfold can_hold. rewrite S. destruct s.
  - assert (2 ^ (len - 1) <= 2 ^ (width t - 1)) by (apply Z.pow_le_mono_r; lia). lia.
  - assert (2 ^ len <= 2 ^ width t) by (apply Z.pow_le_mono_r; lia). lia.
Qed.

(** *** The whole choice *)
Record type_facts (signed : bool) (len : Z) (isdouble : bool) (factor offset : dbl) (ro ph : cty) : Prop := {
  tf_len : len <= (if signed then 63 else 62);
  tf_signed : is_signed ro = signed;
  tf_holds : len <= width ro;
  tf_least : forall t, is_signed t = signed -> len <= width t -> width ro <= width t;
  tf_same : isdouble = true -> ph = ro;
  tf_nonzero : ~ int_val factor 0;
  tf_unsigned : isdouble = false -> is_signed ph = false -> signed = false /\ forall O, int_val offset O -> 0 <= O;
  tf_phys : isdouble = false -> forall F O, int_val factor F -> int_val offset O ->
    (0 < F \/ F < 0 /\ O <= 0 /\ signed = false) -> forall v, carries signed len v -> can_hold ph (v * F + O)
}.

Lemma picked_signed : forall v a t, a = 0 \/ a = 1 -> v = Z.abs v -> v < 2 ^ 63 -> t = pick_type v a signed_types max_signed I8 ->
  is_signed t = true /\ v <= 2 ^ (width t - 1) - 1 + a.
Proof.
  intros v a t A V L ->. unfold pick_type, signed_types, max_signed. destruct A as [-> | ->];
    repeat match goal with |- context [if ?b then _ else _] => destruct b eqn:? end; cbn in *; split; try reflexivity; lia.
Qed.
Lemma picked_unsigned : forall v t, 0 <= v < 2 ^ 63 -> t = pick_type v 0 unsig_types max_unsig U8 ->
  is_signed t = false /\ v <= 2 ^ width t - 1.
Proof.
  intros v t V ->. unfold pick_type, unsig_types, max_unsig.
  repeat match goal with |- context [if ?b then _ else _] => destruct b eqn:? end; cbn in *; split; try reflexivity; lia.
Qed.

Lemma div_zero : forall a b v, cast_i64 (ddiv a b) = Ok v -> ~ int_val b 0.
Proof.
  intros a b v E H. destruct b as [s|s| |s m e]; cbn [int_val] in H; try contradiction.
  - unfold ddiv in E. destruct a as [sa|sa| |sa ma ea]; discriminate E.
  - destruct (0 <=? e) eqn:E0; [|destruct s; discriminate H].
    pose proof (Z.pow_pos_nonneg 2 e). destruct s; nia.
Qed.

Lemma sig_type : forall signed len isdouble factor offset ro ph, 1 <= len <= 255 ->
  get_sig_type signed len isdouble factor offset = Ok (ro, ph) -> type_facts signed len isdouble factor offset ro ph.
Proof.
  intros signed len isdouble factor offset ro ph L E. pose proof (good_at signed len L) as G. unfold good_len in G.
  unfold get_sig_type in E. apply bind_inv in E as (x0 & NZ & E). apply div_zero in NZ. apply bind_inv in E as (m & T & E).
  change (top_of signed len = Ok m) in T. rewrite T in G. clear T x0.
  change (if signed then pick_type m 0 signed_types max_signed I8 else pick_type m 0 unsig_types max_unsig U8) with (ro_of signed m) in E.
  remember (ro_of signed m) as r eqn:R. clear R. cbv zeta in G.
  apply andb_true_iff in G as [G G6]. apply andb_true_iff in G as [G G5]. apply andb_true_iff in G as [G G4].
  apply andb_true_iff in G as [G G3]. apply andb_true_iff in G as [G1 G2]. apply Bool.eqb_prop in G5.
  apply bind_inv in E as (mn & MN & E).
  assert (M : mn = if signed then - (m + 1) else 0).
  { destruct signed; [|congruence]. apply bind_inv in MN as (a & A & MN). apply i64_inv in A as [-> _]. apply i64_inv in MN as [-> _]. lia. }
  clear MN.
  assert (ro = r /\ (isdouble = true -> ph = ro) /\
    (isdouble = false -> is_signed ph = false -> signed = false /\ forall O, int_val offset O -> 0 <= O) /\ (isdouble = false -> forall F O, int_val factor F -> int_val offset O ->
    (0 < F \/ F < 0 /\ O <= 0 /\ signed = false) -> forall v, carries signed len v -> can_hold ph (v * F + O))) as (RO & P & U & Q).
  { destruct isdouble.
    - assert (ro = r /\ ph = r) as [-> ->] by (split; congruence). split; [reflexivity|]. split; [auto|]. split; discriminate.
    - apply bind_inv in E as (o & CO & E). apply bind_inv in E as (f & CF & E). apply bind_inv in E as (a & A & E).
      apply bind_inv in E as (mx2 & X & E). apply bind_inv in E as (b & B & E). apply bind_inv in E as (mn2 & N & E).
      apply i64_inv in A as [-> _]. apply i64_inv in X as [-> RX]. apply i64_inv in B as [-> _]. apply i64_inv in N as [-> RN].
      split; [|split; [discriminate|split]].
      { destruct (_ || _); [|congruence]. apply bind_inv in E as (? & _ & E). apply bind_inv in E as (? & _ & E).
        destruct (_ <? _); congruence. }
      { intros _ SP. destruct (signed || (m * f + o <? 0) || (mn * f + o <? 0)) eqn:D.
        - exfalso. apply bind_inv in E as (p & Pp & E). apply bind_inv in E as (q & Qq & E). apply i64_inv in Pp as [-> PB]. apply i64_inv in Qq as [-> QB].
          destruct (_ <? _) in E; [assert (K : ph = pick_type (Z.abs (mn * f + o)) 1 signed_types max_signed I8) by congruence;
            destruct (picked_signed _ 1 ph (or_intror eq_refl) (eq_sym (Z.abs_involutive _)) ltac:(apply QB) K) as [S1 _]
          |assert (K : ph = pick_type (Z.abs (m * f + o)) 0 signed_types max_signed I8) by congruence;
            destruct (picked_signed _ 0 ph (or_introl eq_refl) (eq_sym (Z.abs_involutive _)) ltac:(apply PB) K) as [S1 _]]; congruence.
        - apply orb_false_iff in D as [D D2]. apply orb_false_iff in D as [D D1]. split; [exact D|]. intros O IO.
          pose proof (cast_i64_int _ _ _ IO CO). subst o signed mn. lia. }
      intros _ F O IF IO POS v V. pose proof (cast_i64_int _ _ _ IF CF); subst f. pose proof (cast_i64_int _ _ _ IO CO); subst o.
      clear CO CF IF IO. assert (VB : mn <= v <= m).
      { unfold carries in V. destruct signed; lia. }
      assert (BD : F < 0 -> m * F + O <= v * F + O <= O) by (intros ?; unfold carries in V; destruct signed; nia).
      assert (BU : 0 < F -> mn * F + O <= v * F + O <= m * F + O) by (intros ?; nia).
      remember (m * F + O) as mx2. remember (mn * F + O) as mn2. unfold can_hold.
      destruct (signed || (mx2 <? 0) || (mn2 <? 0)) eqn:D.
      + apply bind_inv in E as (p & Pp & E). apply bind_inv in E as (q & Qq & E). apply i64_inv in Pp as [-> PB]. apply i64_inv in Qq as [-> QB].
        destruct (Z.abs mx2 + 1 <? Z.abs mn2) eqn:C.
        * assert (K : ph = pick_type (Z.abs mn2) 1 signed_types max_signed I8) by congruence.
          destruct (picked_signed (Z.abs mn2) 1 ph (or_intror eq_refl) ltac:(lia) ltac:(lia) K) as [S1 S2]. rewrite S1. clear K E.
          destruct POS as [|(? & ? & ->)]; [lia|]. subst mn. rewrite Z.mul_0_l, Z.add_0_l in Heqmn2. subst mn2. lia.
        * assert (K : ph = pick_type (Z.abs mx2) 0 signed_types max_signed I8) by congruence.
          destruct (picked_signed (Z.abs mx2) 0 ph (or_introl eq_refl) ltac:(lia) ltac:(lia) K) as [S1 S2]. rewrite S1. clear K E.
          destruct POS as [|(? & ? & ->)]; [lia|]. subst mn. rewrite Z.mul_0_l, Z.add_0_l in Heqmn2. subst mn2. lia.
      + assert (K : ph = pick_type mx2 0 unsig_types max_unsig U8) by congruence.
        apply orb_false_iff in D as [D D2]. apply orb_false_iff in D as [D D1].
        destruct (picked_unsigned mx2 ph ltac:(lia) K) as [S1 S2]. rewrite S1. clear K E.
        subst signed mn. rewrite Z.mul_0_l, Z.add_0_l in Heqmn2. subst mn2. unfold carries in V. destruct POS as [|(? & ? & _)]; nia. }
  subst ro. constructor; auto; try (destruct signed; lia).
  intros t S W. destruct (Z.le_gt_cases (width r) (width t)) as [|H]; auto. exfalso.
  assert (width r = 8 \/ width r <> 8) as [e|e] by lia.
  - assert (8 <= width t) by (destruct t; cbn; lia). lia.
  - pose proof (small_width _ _ e G5 _ S H). lia.
Qed.

Lemma uwrap8 : forall z, 0 <= uwrap 8 z <= 255.
Proof. intros z. unfold uwrap. pose proof (Z.mod_pos_bound z (2 ^ 8)). lia. Qed.

(** an accepted signal line *)
Lemma line_types : forall line sg, parse_signal_line line = Ok (Some sg) -> 1 <= s_len sg ->
  type_facts (s_signed sg) (s_len sg) (s_double sg) (s_factor sg) (s_offset sg) (s_typero sg) (s_typephys sg).
Proof.
  intros line sg H L. unfold parse_signal_line in H. cbv zeta in H.
  destruct (_ <? 2)%nat; [discriminate|]. destruct (_ <? 2)%nat; [discriminate|]. destruct (_ <? 7)%nat; [discriminate|].
  apply bind_inv in H as ((ro & ph) & T & H). destruct (_ =? 3)%nat; [|discriminate].
  apply ok_some_inj in H. subst sg. cbn [s_len s_signed s_double s_factor s_offset s_typero s_typephys fst snd] in *.
  apply sig_type; [|exact T]. pose proof (uwrap8 (atoi (nth 1 (split_runs recv_delim (trim (nth 0 (split_each is_quote (nth 1 (split_colon line) "")) ""))) ""))). lia.
Qed.
