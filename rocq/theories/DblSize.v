(** Printed numbers are short: the text of a double that comes out of a conversion or an operation. *)

From Coq Require Import ZArith NArith List String Ascii Bool Lia ZifyBool.
From Coq Require Import Floats.SpecFloat.
From Verif Require Import Base Dbl Types Formatter LexLemmas SigSpec DblPrint.
Import ListNotations.
Open Scope Z_scope.

(** mantissa of at most 53 bits, exponent of at most 971 *)
Definition sized (d : dbl) : Prop :=
  match d with S754_finite _ m e => Zpos m < 2 ^ 53 /\ e <= 971 | _ => True end.

Lemma shr_1_size : forall r, 0 <= shr_m r -> 0 <= shr_m (shr_1 r) /\ 2 * shr_m (shr_1 r) <= shr_m r.
Proof. intros [m r s] H. cbn [shr_m] in H. destruct m as [|p|p]; [cbn; lia| |lia]. destruct p; cbn; lia. Qed.
Lemma iter_size : forall p r, 0 <= shr_m r -> 0 <= shr_m (iter_pos shr_1 p r) /\ 2 ^ Zpos p * shr_m (iter_pos shr_1 p r) <= shr_m r.
Proof.
  induction p as [p IH|p IH|]; intros r H; cbn [iter_pos].
  - destruct (shr_1_size r H) as [A B]. destruct (IH _ A) as [C D]. destruct (IH _ C) as [E F]. split; [exact E|].
    replace (Zpos p~1) with (1 + (Zpos p + Zpos p)) by lia. rewrite !Z.pow_add_r by lia. nia.
  - destruct (IH _ H) as [C D]. destruct (IH _ C) as [E F]. split; [exact E|].
    replace (Zpos p~0) with (Zpos p + Zpos p) by lia. rewrite Z.pow_add_r by lia. nia.
  - destruct (shr_1_size r H) as [A B]. split; [exact A|]. change (2 ^ 1) with 2. lia.
Qed.
Lemma of_loc_m : forall m l, shr_m (shr_record_of_loc m l) = m.
Proof. intros m [|[]]; reflexivity. Qed.
Lemma fexp_size : forall m e l, 0 <= m -> let r := fst (shr_fexp dprec demax m e l) in 0 <= shr_m r /\ shr_m r < 2 ^ 53.
Proof.
  intros m e l H. cbv zeta. unfold shr_fexp, shr.
  assert (B : m < 2 ^ Zdigits2 m).
  { destruct m as [|p|p]; [cbn; lia| |lia]. cbn [Zdigits2]. apply digits2_bound. }
  assert (D : 0 <= Zdigits2 m) by (destruct m; cbn; lia).
  destruct (fexp dprec demax (Zdigits2 m + e) - e) as [|k|k] eqn:E; cbn [fst]; rewrite ?of_loc_m.
  - split; [exact H|]. assert (Zdigits2 m <= 53) by (unfold fexp, dprec in E; lia). assert (2 ^ Zdigits2 m <= 2 ^ 53) by (apply Z.pow_le_mono_r; lia). lia.
  - destruct (iter_size k (shr_record_of_loc m l)) as [A C]; [now rewrite of_loc_m|]. rewrite of_loc_m in C. split; [exact A|].
    assert (K : Zdigits2 m - 53 <= Zpos k) by (unfold fexp, dprec in E; lia).
    assert (P : 2 ^ Zdigits2 m <= 2 ^ Zpos k * 2 ^ 53) by (rewrite <- Z.pow_add_r by lia; apply Z.pow_le_mono_r; lia).
    pose proof (Z.pow_pos_nonneg 2 (Zpos k)). nia.
  - split; [exact H|]. assert (Zdigits2 m <= 53) by (unfold fexp, dprec in E; lia). assert (2 ^ Zdigits2 m <= 2 ^ 53) by (apply Z.pow_le_mono_r; lia). lia.
Qed.
Lemma round_aux_size : forall s m e l, 0 <= m -> sized (binary_round_aux dprec demax s m e l).
Proof.
  intros s m e l H. unfold binary_round_aux. pose proof (fexp_size m e l H) as A. cbv zeta in A.
  destruct (shr_fexp dprec demax m e l) as [r1 e1]. cbn [fst] in A.
  assert (N : 0 <= round_nearest_even (shr_m r1) (loc_of_shr_record r1)).
  { unfold round_nearest_even. destruct (loc_of_shr_record r1) as [|[]]; try destruct (Z.even _); lia. }
  pose proof (fexp_size _ e1 loc_Exact N) as B. cbv zeta in B. destruct (shr_fexp dprec demax _ e1 loc_Exact) as [r2 e2]. cbn [fst] in B.
  destruct (shr_m r2) as [|p|p]; [exact Logic.I| |exact Logic.I]. destruct (Z.leb_spec e2 (demax - dprec)); [|exact Logic.I].
  cbn [sized]. unfold demax, dprec in *. lia.
Qed.
Lemma round_size : forall s m e, sized (binary_round dprec demax s m e).
Proof. intros s m e. unfold binary_round. destruct (shl_align _ _ _) as [mz ez]. apply round_aux_size. lia. Qed.
Lemma normalize_size : forall m e s, sized (binary_normalize dprec demax m e s).
Proof. intros [|m|m] e s; cbn [binary_normalize]; [exact Logic.I|apply round_size|apply round_size]. Qed.
Lemma div_size : forall s n d, sized (dbl_of_ratio s n d).
Proof.
  intros s n d. unfold dbl_of_ratio, ddiv, SFdiv. destruct (SFdiv_core_binary _ _ _ _ _ _) as [[q e] l] eqn:E.
  apply round_aux_size. unfold SFdiv_core_binary in E.
  destruct (Z.div_eucl _ _) as [q' r] eqn:Q in E. assert (q = q') by congruence. subst q'.
  match type of Q with Z.div_eucl ?a ?b = _ => assert (q = a / b) by (unfold Z.div; now rewrite Q); assert (0 <= a) end; [|subst q; apply Z.div_pos; lia].
  clear. destruct (_ - _); try lia. rewrite Z.shiftl_nonneg. lia.
Qed.
Lemma num_size : forall n, sized (num_value n).
Proof.
  intros [z|neg a b ex]; cbn [num_value]; [apply normalize_size|]. unfold dbl_of_decimal.
  destruct (digits_value _); [exact Logic.I|]. destruct (_ - _); auto using normalize_size, div_size.
Qed.

Lemma scaled_size : forall m e, Zpos m < 2 ^ 53 -> e <= 971 -> (fixed10_scaled m e < 10 ^ 320)%N.
Proof.
  intros m e M E.
  assert (X : Z.of_N (fixed10_scaled m e) <= 2 ^ 1024 * 10 ^ 10 + 1).
  { unfold fixed10_scaled. destruct e as [|q|q].
    - rewrite Z2N.id by lia. change (2 ^ 0) with 1. assert (2 ^ 53 <= 2 ^ 1024) by (apply Z.pow_le_mono_r; lia). lia.
    - rewrite Z2N.id by lia. assert (2 ^ Zpos q <= 2 ^ 971) by (apply Z.pow_le_mono_r; lia).
      assert (P : 2 ^ 1024 = 2 ^ 53 * 2 ^ 971) by (rewrite <- Z.pow_add_r by lia; reflexivity). rewrite P. nia.
    - rewrite Z2N.id by (apply round_pos; lia). pose proof (round_close (Zpos m * 10 ^ 10) (2 ^ Zpos q) ltac:(lia)) as C.
      set (r := round_half_even _ _) in *. pose proof (Z.pow_pos_nonneg 2 (Zpos q)).
      assert (2 ^ 53 <= 2 ^ 1024) by (apply Z.pow_le_mono_r; lia). assert (0 <= r) by (apply round_pos; lia).
      assert (r * 2 ^ Zpos q <= Zpos m * 10 ^ 10 + 2 ^ Zpos q) by lia. nia. }
  assert (Y : 2 ^ 1024 * 10 ^ 10 + 1 < 10 ^ 320) by (vm_compute; reflexivity). rewrite <- (N2Z.id (10 ^ 320)). lia.
Qed.
Lemma printed_len : forall d, sized d -> (String.length (prt_double d 9) <= 400)%nat.
Proof.
  intros d S.
  assert (X : forall (s : bool) n, (n < 10 ^ 320)%N ->
    (String.length (cut_text ((if s then "-" else "") ++ dec (n / 10 ^ 10) ++ "." ++ pad_left 10 "0" (dec (n mod 10 ^ 10)))) <= 400)%nat).
  { intros s n H. destruct (cut_spec s n) as (b & -> & _ & B & _). rewrite !len_app.
    assert (L : (String.length (dec (n / 10 ^ 10)) <= 320)%nat).
    { apply dec_len; [|lia]. change (N.of_nat 320) with 320%N. apply N.div_lt_upper_bound; [discriminate|]. lia. }
    cbn [String.length]. destruct s; cbn [String.length]; lia. }
  change (prt_double d 9) with (cut_text (fixed10 d)). destruct d as [s|s| |s m e].
  - apply (X s 0%N). reflexivity.
  - destruct s; vm_compute; lia.
  - vm_compute; lia.
  - destruct S as [S1 S2]. apply X. apply (scaled_size m e S1 S2).
Qed.
