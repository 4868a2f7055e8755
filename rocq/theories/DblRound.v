(** Results of double arithmetic are doubles and are next to the exact results. *)

From Coq Require Import ZArith NArith QArith Qabs Qpower List String Ascii Bool Lia ZifyBool Lqa.
From Coq Require Import Floats.SpecFloat.
From Verif Require Import Base Dbl Types Formatter ConvSpec DblPrint DblSize.
Import ListNotations.
Open Scope Z_scope.

(** *** Shifts *)
Notation fx := (fexp dprec demax).
Lemma fx_max : forall x, fx x = Z.max (x - 53) (-1074).
Proof. reflexivity. Qed.
Lemma dig_bound : forall m, 0 < m -> 1 <= Zdigits2 m /\ 2 ^ (Zdigits2 m - 1) <= m < 2 ^ Zdigits2 m.
Proof. intros [|p|p] H; try lia. cbn [Zdigits2]. split; [lia|apply digits2_bound]. Qed.
Lemma dig_unique : forall m k, 2 ^ (k - 1) <= m < 2 ^ k -> 0 < m -> 1 <= k -> Zdigits2 m = k.
Proof.
  intros m k B H K. destruct (dig_bound m H) as (D1 & D2). set (d := Zdigits2 m) in *.
  destruct (Z.lt_trichotomy d k) as [L|[E|L]]; auto; exfalso.
  - assert (2 ^ d <= 2 ^ (k - 1)) by (apply Z.pow_le_mono_r; lia). lia.
  - assert (2 ^ k <= 2 ^ (d - 1)) by (apply Z.pow_le_mono_r; lia). lia.
Qed.
Lemma dig_mono : forall a b, 0 < a <= b -> Zdigits2 a <= Zdigits2 b.
Proof.
  intros a b H. destruct (dig_bound a) as (A1 & A2); [lia|]. destruct (dig_bound b) as (B1 & B2); [lia|].
  destruct (Z.le_gt_cases (Zdigits2 a) (Zdigits2 b)) as [|L]; auto. exfalso.
  assert (2 ^ Zdigits2 b <= 2 ^ (Zdigits2 a - 1)) by (apply Z.pow_le_mono_r; lia). lia.
Qed.

(** the exact number [n] / [d], of which [r] keeps the integral part, whether it is over a half, and whether anything is left *)
Definition reps (r : shr_record) (n d : Z) : Prop :=
  0 < d /\ 0 <= shr_m r /\
  let x := n - shr_m r * d in
  match shr_r r, shr_s r with
  | false, false => x = 0
  | false, true => 0 < 2 * x < d
  | true, false => 2 * x = d
  | true, true => d < 2 * x < 2 * d
  end.
Lemma reps_shr_1 : forall r n d, reps r n d -> reps (shr_1 r) n (2 * d).
Proof.
  intros [m r s] n d (D & M & X). cbn [shr_m shr_r shr_s] in *. unfold reps. destruct m as [|p|p]; [| |lia].
  - cbn [shr_1 shr_m shr_r shr_s]. split; [lia|]. split; [lia|]. destruct r, s; cbn [orb]; lia.
  - destruct p as [p|p|]; cbn [shr_1 shr_m shr_r shr_s]; (split; [lia|]); (split; [lia|]).
    + replace (Zpos p~1 * d) with (2 * (Zpos p * d) + d) in X by nia. replace (Zpos p * (2 * d)) with (2 * (Zpos p * d)) by nia. set (y := Zpos p * d) in *. destruct r, s; cbn [orb]; lia.
    + replace (Zpos p~0 * d) with (2 * (Zpos p * d)) in X by nia. replace (Zpos p * (2 * d)) with (2 * (Zpos p * d)) by nia. set (y := Zpos p * d) in *. destruct r, s; cbn [orb]; lia.
    + destruct r, s; cbn [orb]; lia.
Qed.
Lemma reps_iter : forall p r n d, reps r n d -> reps (iter_pos shr_1 p r) n (2 ^ Zpos p * d).
Proof.
  induction p as [p IH|p IH|]; intros r n d H; cbn [iter_pos].
  - replace (2 ^ Zpos p~1 * d) with (2 ^ Zpos p * (2 ^ Zpos p * (2 * d))).
    + apply IH, IH, reps_shr_1, H.
    + replace (Zpos p~1) with (1 + (Zpos p + Zpos p)) by lia. rewrite !Z.pow_add_r by lia. ring.
  - replace (2 ^ Zpos p~0 * d) with (2 ^ Zpos p * (2 ^ Zpos p * d)).
    + apply IH, IH, H.
    + replace (Zpos p~0) with (Zpos p + Zpos p) by lia. rewrite !Z.pow_add_r by lia. ring.
  - change (2 ^ 1) with 2. apply reps_shr_1, H.
Qed.
Lemma reps_floor : forall r n d, reps r n d -> shr_m r * d <= n < (shr_m r + 1) * d.
Proof. intros r n d (D & M & X). cbv zeta in X. destruct (shr_r r), (shr_s r); lia. Qed.
Lemma reps_round : forall r n d, reps r n d -> let m := round_nearest_even (shr_m r) (loc_of_shr_record r) in
  2 * Z.abs (m * d - n) <= d /\ (m = shr_m r \/ m = shr_m r + 1).
Proof.
  intros [m r s] n d (D & M & X). cbn [shr_m shr_r shr_s] in *. cbv zeta. unfold loc_of_shr_record, round_nearest_even.
  destruct r, s; try destruct (Z.even m); (split; [|auto]); lia.
Qed.

(** what is known about the exact number when rounding starts *)
Definition located (m : Z) (l : location) (n d : Z) : Prop := reps (shr_record_of_loc m l) n d.

Definition starts (m e : Z) : Prop := 0 < m \/ m = 0 /\ e <= -1074.
Lemma shr_fexp_spec : forall m e l n d r e', starts m e -> located m l n d -> e <= fx (Zdigits2 m + e) -> shr_fexp dprec demax m e l = (r, e') ->
  e' = fx (Zdigits2 m + e) /\ reps r n (2 ^ (e' - e) * d) /\ 0 <= shr_m r /\ (0 < shr_m r -> Zdigits2 (shr_m r) + e' = Zdigits2 m + e) /\ (shr_m r = 0 -> e' = -1074).
Proof.
  intros m e l n d r e' M L E X. destruct M as [M|[-> M]].
  2: { unfold shr_fexp in X. cbn [Zdigits2] in *. rewrite fx_max in *. replace (Z.max (0 + e - 53) (-1074)) with (-1074) in * by lia.
       assert (X2 : e' = -1074 /\ reps r n (2 ^ (-1074 - e) * d)).
       { destruct (-1074 - e) as [|k|k] eqn:K; [| |lia]; cbn [shr] in X; apply pair_equal_spec in X as [<- <-]; (split; [lia|]).
         - change (2 ^ 0) with 1. rewrite Z.mul_1_l. exact L.
         - apply reps_iter, L. }
       destruct X2 as [-> R]. split; [reflexivity|]. split; [exact R|]. pose proof (reps_floor _ _ _ R) as B. pose proof (reps_floor _ _ _ L) as A. rewrite of_loc_m in A.
       assert (D : 0 < d) by apply L. assert (N : 0 <= shr_m r) by apply R. split; [exact N|]. pose proof (Z.pow_pos_nonneg 2 (-1074 - e) ltac:(lia) ltac:(lia)) as P.
       set (K := 2 ^ (-1074 - e)) in *. assert (shr_m r = 0) by nia. lia. }
  unfold shr_fexp in X. destruct (dig_bound m M) as (G1 & G2).
  assert (FM : shr_m (shr_record_of_loc m l) = m) by apply of_loc_m.
  destruct (fx (Zdigits2 m + e) - e) as [|k|k] eqn:K; [| |lia]; cbn [shr] in X; apply pair_equal_spec in X as [<- <-].
  - assert (e = fx (Zdigits2 m + e)) by lia. split; [assumption|]. rewrite Z.sub_diag. change (2 ^ 0) with 1. rewrite Z.mul_1_l, FM. split; [exact L|]. split; [lia|]. split; [reflexivity|lia].
  - assert (e + Zpos k = fx (Zdigits2 m + e)) as E' by lia. split; [assumption|]. replace (e + Zpos k - e) with (Zpos k) by lia.
    pose proof (reps_iter k _ _ _ L) as R. split; [exact R|]. set (r := iter_pos shr_1 k (shr_record_of_loc m l)) in *.
    pose proof (reps_floor _ _ _ R) as B. pose proof (reps_floor _ _ _ L) as A. rewrite FM in A. assert (D : 0 < d) by apply L. assert (NN : 0 <= shr_m r) by apply R.
    pose proof (Z.pow_pos_nonneg 2 (Zpos k) ltac:(lia) ltac:(lia)) as P. set (K2 := 2 ^ Zpos k) in *.
    assert (I1 : shr_m r * K2 <= m).
    { assert (shr_m r * K2 * d < (m + 1) * d) by lia. nia. }
    assert (I2 : m < (shr_m r + 1) * K2).
    { assert (m * d < (shr_m r + 1) * K2 * d) by lia. nia. }
    split; [exact NN|]. split.
    + intros Q. assert (KD : Zpos k < Zdigits2 m).
      { destruct (Z.lt_ge_cases (Zpos k) (Zdigits2 m)) as [|W]; auto. exfalso. assert (2 ^ Zdigits2 m <= K2) by (apply Z.pow_le_mono_r; lia). nia. }
      assert (Zdigits2 (shr_m r) = Zdigits2 m - Zpos k); [|lia]. apply dig_unique; [|exact Q|lia].
      assert (P1 : 2 ^ (Zdigits2 m - 1) = 2 ^ (Zdigits2 m - Zpos k - 1) * K2) by (unfold K2; rewrite <- Z.pow_add_r by lia; f_equal; lia).
      assert (P2 : 2 ^ Zdigits2 m = 2 ^ (Zdigits2 m - Zpos k) * K2) by (unfold K2; rewrite <- Z.pow_add_r by lia; f_equal; lia).
      rewrite P1, P2 in G2. set (a := 2 ^ (Zdigits2 m - Zpos k - 1)) in *. set (b := 2 ^ (Zdigits2 m - Zpos k)) in *. clear - G2 I1 I2 P. split; nia.
    + intros Q. rewrite Q in I2. assert (KD : Zdigits2 m <= Zpos k).
      { destruct (Z.le_gt_cases (Zdigits2 m) (Zpos k)) as [|W]; auto. exfalso. assert (K2 <= 2 ^ (Zdigits2 m - 1)) by (apply Z.pow_le_mono_r; lia). lia. }
      rewrite fx_max in E'. lia.
Qed.

(** rounding: a double, next to the exact number *)
Lemma round_aux_spec : forall s m e l n d, starts m e -> located m l n d -> e <= fx (Zdigits2 m + e) ->
  let e1 := fx (Zdigits2 m + e) in
  is_double (binary_round_aux dprec demax s m e l) /\
  match binary_round_aux dprec demax s m e l with
  | S754_zero s' => s' = s /\ 2 * n <= 2 ^ (e1 - e) * d /\ e1 = -1074
  | S754_infinity s' => s' = s /\ 1024 <= Zdigits2 m + e
  | S754_nan => False
  | S754_finite s' m' e' => s' = s /\ e1 <= e' /\ 2 * Z.abs (Zpos m' * 2 ^ (e' - e1) * (2 ^ (e1 - e) * d) - n) <= 2 ^ (e1 - e) * d
  end.
Proof.
  intros s m e l n d M L E e1. unfold binary_round_aux.
  destruct (shr_fexp dprec demax m e l) as [r ea] eqn:S1. destruct (shr_fexp_spec m e l n d r ea M L E S1) as (E1 & R & N0 & DG & Z0).
  pose proof (fexp_size m e l ltac:(unfold starts in M; lia)) as SZ. cbv zeta in SZ. rewrite S1 in SZ. cbn [fst] in SZ. fold e1 in E1. subst ea.
  destruct (reps_round _ _ _ R) as (RN & RC). set (m2 := round_nearest_even (shr_m r) (loc_of_shr_record r)) in *. set (D := 2 ^ (e1 - e) * d) in *.
  assert (DP : 0 < D) by apply R.
  assert (EM : -1074 <= e1) by (unfold e1; rewrite fx_max; lia).
  destruct (Z.eq_dec m2 0) as [M0|M0].
  { rewrite M0. assert (X : shr_m r = 0) by lia. specialize (Z0 X). rewrite M0 in RN. destruct (shr_fexp dprec demax 0 e1 loc_Exact) as [r2 e2] eqn:S2.
    unfold shr_fexp in S2. cbn [Zdigits2] in S2. rewrite Z0 in S2. cbn in S2. apply pair_equal_spec in S2 as [<- <-]. cbn [shr_m].
    split; [reflexivity|]. split; [reflexivity|]. split; [|exact Z0]. pose proof (reps_floor _ _ _ R). lia. }
  assert (MP : 0 < m2) by lia.
  assert (LE : e1 <= fx (Zdigits2 m2 + e1)).
  { destruct (Z.eq_dec (shr_m r) 0) as [X|X]; [rewrite (Z0 X), fx_max; lia|].
    specialize (DG ltac:(lia)). assert (Zdigits2 (shr_m r) <= Zdigits2 m2) by (apply dig_mono; lia). unfold e1 at 1. rewrite <- DG. rewrite !fx_max. lia. }
  destruct (shr_fexp dprec demax m2 e1 loc_Exact) as [r2 e2] eqn:S2.
  assert (L2 : located m2 loc_Exact m2 1) by (unfold located, reps; cbn; lia).
  destruct (shr_fexp_spec m2 e1 loc_Exact m2 1 r2 e2 (or_introl MP) L2 LE S2) as (E2 & R2 & N2 & DG2 & Z2).
  assert (M2 : m2 <= 2 ^ 53) by lia.
  assert (VAL : 0 < shr_m r2 /\ e1 <= e2 /\ shr_m r2 * 2 ^ (e2 - e1) = m2 /\ (e2 = e1 \/ e2 = e1 + 1 /\ m2 = 2 ^ 53)).
  { destruct (Z.eq_dec m2 (2 ^ 53)) as [Q|Q].
    - assert (D2 : Zdigits2 m2 = 54) by (rewrite Q; reflexivity). rewrite D2, fx_max in E2. assert (e2 = e1 + 1) by lia. clear - S2 D2 H Q EM.
      unfold shr_fexp in S2. rewrite D2, fx_max in S2. replace (Z.max (54 + e1 - 53) (-1074) - e1) with 1 in S2 by lia. rewrite Q in S2. cbn in S2.
      apply pair_equal_spec in S2 as [<- _]. subst e2. cbn [shr_m]. replace (e1 + 1 - e1) with 1 by lia. rewrite Q. split; [lia|]. split; [lia|]. split; [reflexivity|auto].
    - assert (D2 : Zdigits2 m2 <= 53).
      { destruct (dig_bound m2 MP) as (A & B). destruct (Z.le_gt_cases (Zdigits2 m2) 53) as [|W]; auto. exfalso. assert (2 ^ 53 <= 2 ^ (Zdigits2 m2 - 1)) by (apply Z.pow_le_mono_r; lia). lia. }
      rewrite fx_max in E2, LE. assert (e2 = e1) by lia. clear E2. subst e2. rewrite Z.sub_diag in *. change (2 ^ 0) with 1 in *. rewrite Z.mul_1_l in R2. pose proof (reps_floor _ _ _ R2). split; [lia|]. split; [lia|]. split; [lia|auto]. }
  destruct VAL as (V1 & V2 & V3 & V4). specialize (DG2 V1). destruct (shr_m r2) as [|p|p] eqn:SM; try lia.
  destruct (Z.leb_spec e2 (demax - dprec)) as [B|B].
  - split.
    + unfold is_double, valid_binary, bounded, canonical_mantissa. apply andb_true_iff. split; [|apply Z.leb_le; exact B].
      apply Zeq_is_eq_bool. cbn [Zdigits2] in DG2. change 53 with dprec. change 1024 with demax. rewrite DG2. symmetry. exact E2.
    + split; [reflexivity|]. split; [exact V2|]. rewrite V3. exact RN.
  - split; [reflexivity|]. split; [reflexivity|]. change (demax - dprec) with 971 in B. unfold e1 in *. rewrite fx_max in *. lia.
Qed.

(** *** In rational numbers *)
Open Scope Q_scope.
Definition p2 (k : Z) : Q := (2 # 1) ^ k.
Lemma p2_pos : forall k, 0 < p2 k.
Proof. intros k. apply Qpower_0_lt. reflexivity. Qed.
Lemma p2_add : forall a b, p2 (a + b) == p2 a * p2 b.
Proof. intros a b. apply Qpower_plus. discriminate. Qed.
Lemma p2_le : forall a b, (a <= b)%Z -> p2 a <= p2 b.
Proof. intros a b H. apply Qpower_le_compat_l; [exact H|discriminate]. Qed.
Lemma p2_lt_inv : forall a b, p2 a < p2 b -> (a < b)%Z.
Proof. intros a b H. apply (Qpower_lt_compat_l_inv (2 # 1)); [exact H|reflexivity]. Qed.
Lemma p2_Z : forall k, (0 <= k)%Z -> inject_Z (2 ^ k) == p2 k.
Proof. intros k H. now rewrite Zpower_Qpower. Qed.
Lemma p2_neg : forall q, p2 (Zneg q) == 1 # Pos.pow 2 q.
Proof.
  intros q. unfold p2. change ((2 # 1) ^ Zneg q) with (/ ((2 # 1) ^ Zpos q)). change (2 # 1) with (inject_Z 2). rewrite <- Zpower_Qpower by lia.
  rewrite <- Pos2Z.inj_pow. reflexivity.
Qed.
Definition sgn (s : bool) : Q := if s then - (1) else 1.
Lemma dval_p2 : forall s m e, exists q, dval (S754_finite s m e) = Some q /\ q == sgn s * inject_Z (Zpos m) * p2 e.
Proof.
  intros s m e. eexists. split; [reflexivity|].
  assert (X : (if s then Zneg m else Zpos m) = ((if s then -1 else 1) * Zpos m)%Z) by (destruct s; lia).
  destruct e as [|e|e].
  - rewrite X. change (2 ^ 0)%Z with 1%Z. rewrite Z.mul_1_r. change (p2 0) with 1. rewrite inject_Z_mult. destruct s; unfold sgn; ring.
  - rewrite X, !inject_Z_mult, p2_Z by lia. destruct s; unfold sgn; ring.
  - rewrite p2_neg. rewrite X. setoid_replace ((if s then -1 else 1) * Z.pos m # 2 ^ e) with (inject_Z ((if s then -1 else 1) * Z.pos m) * (1 # 2 ^ e)).
    + rewrite inject_Z_mult. destruct s; unfold sgn; ring.
    + unfold Qeq, Qmult, inject_Z. cbn [Qnum Qden]. rewrite Z.mul_1_r. reflexivity.
Qed.

(** a double that is next to [x] *)
Definition near (d : dbl) (x : Q) : Prop :=
  is_double d /\ exists v, dval d = Some v /\ Qabs (v - x) <= Qabs x * p2 (-53) + p2 (-1075).
Global Instance near_proper d : Morphisms.Proper (Qeq ==> iff) (near d).
Proof.
  assert (X : forall x y, x == y -> near d x -> near d y).
  { intros x y E (D & v & V & H). split; [exact D|]. exists v. split; [exact V|]. now rewrite <- E. }
  intros x y E. split; apply X; [exact E|now symmetry].
Qed.
Lemma near_exact : forall d x, is_double d -> dval d = Some x -> near d x.
Proof.
  intros d x D V. split; [exact D|]. exists x. split; [exact V|]. setoid_replace (x - x) with 0 by ring. change (Qabs 0) with 0.
  pose proof (p2_pos (-53)). pose proof (p2_pos (-1075)). pose proof (Qabs_nonneg x). nra.
Qed.

Lemma Qabs_sgn : forall s x, Qabs (sgn s * x) == Qabs x.
Proof. intros [] x; unfold sgn; [setoid_replace (- (1) * x) with (- x) by ring; apply Qabs_opp|now rewrite Qmult_1_l]. Qed.

Lemma round_near : forall s m e l n d, starts m e -> located m l n d -> (e <= fx (Zdigits2 m + e))%Z ->
  let x := inject_Z n / inject_Z d * p2 e in x < p2 1023 -> near (binary_round_aux dprec demax s m e l) (sgn s * x).
Proof.
  intros s m e l n d M L E x B. destruct (round_aux_spec s m e l n d M L E) as (ID & R). split; [exact ID|].
  pose proof (reps_floor _ _ _ L) as FL. rewrite of_loc_m in FL. assert (DP : (0 < d)%Z) by apply L. assert (M0 : (0 <= m)%Z) by (unfold starts in M; lia).
  assert (DQ : 0 < inject_Z d) by (change 0 with (inject_Z 0); rewrite <- Zlt_Qlt; exact DP).
  assert (MX : inject_Z m * p2 e <= x).
  { unfold x. apply Qmult_le_compat_r; [|apply Qlt_le_weak, p2_pos]. apply Qle_shift_div_l; [exact DQ|]. rewrite <- inject_Z_mult, <- Zle_Qle. lia. }
  assert (XP : 0 <= x) by (assert (0 <= inject_Z m) by (change 0 with (inject_Z 0); rewrite <- Zle_Qle; exact M0); pose proof (p2_pos e); nra).
  assert (DX : (0 < m)%Z -> p2 (Zdigits2 m - 1 + e) <= x).
  { clear M. intros M. destruct (dig_bound m M) as (_ & DB & _). rewrite p2_add. rewrite <- p2_Z by (pose proof (dig_bound m M); lia). assert (inject_Z (2 ^ (Zdigits2 m - 1)) <= inject_Z m) by (rewrite <- Zle_Qle; exact DB). pose proof (p2_pos e). nra. }
  set (e1 := fx (Zdigits2 m + e)) in *.
  assert (HU : p2 (e1 - 1) <= x * p2 (-53) + p2 (-1075)).
  { pose proof (p2_pos (-53)). pose proof (p2_pos (-1075)). destruct (Z.le_gt_cases (Zdigits2 m + e - 53) (-1074)) as [C|C]; [|destruct M as [M|[-> M]]; [specialize (DX M)|cbn [Zdigits2] in C; lia]].
    - replace (e1 - 1)%Z with (-1075)%Z by (unfold e1; rewrite fx_max; lia). nra.
    - replace (e1 - 1)%Z with (Zdigits2 m - 1 + e + -53)%Z by (unfold e1; rewrite fx_max; lia). rewrite (p2_add (Zdigits2 m - 1 + e)). nra. }
  assert (AX : Qabs (sgn s * x) == x) by (rewrite Qabs_sgn; apply Qabs_pos, XP).
  destruct (binary_round_aux dprec demax s m e l) as [s'|s'| |s' m' e'].
  - destruct R as (-> & R & E1). exists 0. split; [reflexivity|]. rewrite AX. setoid_replace (0 - sgn s * x) with (sgn s * - x) by ring. rewrite Qabs_sgn, Qabs_opp, Qabs_pos by exact XP.
    apply Qle_trans with (p2 (e1 - 1)); [|exact HU]. unfold x.
    setoid_replace (p2 (e1 - 1)) with (p2 (e1 - e) * (1 # 2) * p2 e).
    + apply Qmult_le_compat_r; [|apply Qlt_le_weak, p2_pos]. apply Qle_shift_div_r; [exact DQ|]. rewrite <- p2_Z by lia.
      assert (inject_Z (2 * n) <= inject_Z (2 ^ (e1 - e) * d)) by (rewrite <- Zle_Qle; exact R). rewrite !inject_Z_mult in H. change (inject_Z 2) with (2 # 1) in H. lra.
    + replace (e1 - 1)%Z with ((e1 - e) + -1 + e)%Z by lia. rewrite !p2_add. change (p2 (-1)) with (1 # 2). ring.
  - destruct R as (_ & R). exfalso. destruct M as [M|[-> M]]; [specialize (DX M)|cbn [Zdigits2] in R; lia]. assert (X : p2 1023 <= p2 (Zdigits2 m - 1 + e)) by (apply p2_le; lia). lra.
  - contradiction.
  - destruct R as (-> & E1 & R). destruct (dval_p2 s m' e') as (q & Q1 & Q2). exists q. split; [exact Q1|]. rewrite AX, Q2.
    setoid_replace (sgn s * inject_Z (Z.pos m') * p2 e' - sgn s * x) with (sgn s * (inject_Z (Zpos m') * p2 e' - x)) by ring. rewrite Qabs_sgn.
    apply Qle_trans with (p2 (e1 - 1)); [|exact HU].
    set (D := (2 ^ (e1 - e) * d)%Z) in *. assert (DD : 0 < inject_Z D).
    { change 0 with (inject_Z 0). rewrite <- Zlt_Qlt. unfold D. pose proof (Z.pow_pos_nonneg 2 (e1 - e)). nia. }
    assert (EX : inject_Z (Zpos m') * p2 e' - x == inject_Z (Zpos m' * 2 ^ (e' - e1) * D - n) * (/ inject_Z D * p2 e1)).
    { unfold x. replace (Z.pos m' * 2 ^ (e' - e1) * D - n)%Z with (Z.pos m' * 2 ^ (e' - e1) * D + - n)%Z by lia. rewrite inject_Z_plus, inject_Z_opp, !inject_Z_mult.
      replace e' with ((e' - e1) + e1)%Z at 1 by lia. rewrite p2_add. rewrite (p2_Z (e' - e1)) by lia.
      replace e with (e1 + - (e1 - e))%Z at 1 by lia. rewrite (p2_add e1).
      assert (PN : p2 (- (e1 - e)) * p2 (e1 - e) == 1) by (rewrite <- p2_add; replace (- (e1 - e) + (e1 - e))%Z with 0%Z by lia; reflexivity).
      assert (DE : inject_Z D == p2 (e1 - e) * inject_Z d) by (unfold D; rewrite inject_Z_mult, p2_Z by lia; reflexivity).
      pose proof (p2_pos (e1 - e)). pose proof (p2_pos (- (e1 - e))). assert (PI : p2 (- (e1 - e)) == / p2 (e1 - e)).
      { rewrite <- (Qmult_1_l (/ p2 (e1 - e))), <- PN. field. lra. }
      rewrite PI, DE. field. split; lra. }
    rewrite EX, Qabs_Qmult. pose proof (p2_pos e1). assert (IP : 0 < / inject_Z D) by (apply Qinv_lt_0_compat; exact DD).
    rewrite (Qabs_pos (/ inject_Z D * p2 e1)) by nra.
    assert (RQ : (2 # 1) * Qabs (inject_Z (Zpos m' * 2 ^ (e' - e1) * D - n)) <= inject_Z D).
    { assert (H2 : inject_Z (2 * Z.abs (Zpos m' * 2 ^ (e' - e1) * D - n)) <= inject_Z D) by (rewrite <- Zle_Qle; exact R). rewrite inject_Z_mult in H2.
      change (inject_Z 2) with (2 # 1) in H2. exact H2. }
    replace (e1 - 1)%Z with (-1 + e1)%Z by lia. rewrite p2_add. change (p2 (-1)) with (1 # 2).
    set (a := Qabs (inject_Z _)) in *. assert (a * / inject_Z D <= 1 # 2).
    { apply (Qmult_le_r _ _ (inject_Z D)); [exact DD|]. setoid_replace (a * / inject_Z D * inject_Z D) with a by (field; apply Qnot_eq_sym, Qlt_not_eq; exact DD). lra. }
    rewrite Qmult_assoc. nra.
Qed.

(** [d] comes from rounding the exact number [x] with sign [s] *)
Definition rounds (d : dbl) (s : bool) (x : Q) : Prop :=
  exists m e l n k, d = binary_round_aux dprec demax s m e l /\ starts m e /\ located m l n k /\ (e <= fx (Zdigits2 m + e))%Z /\
    x == inject_Z n / inject_Z k * p2 e.
Lemma rounds_double : forall d s x, rounds d s x -> is_double d.
Proof. intros d s x (m & e & l & n & k & -> & M & L & E & _). apply (round_aux_spec s m e l n k M L E). Qed.
Lemma rounds_near : forall d s x, rounds d s x -> x < p2 1023 -> near d (sgn s * x).
Proof. intros d s x (m & e & l & n & k & -> & M & L & E & X) B. rewrite X in B |- *. now apply (round_near s m e l n k M L E). Qed.

(** *** Operations *)
Lemma div_1 : forall n, inject_Z n / inject_Z 1 == inject_Z n.
Proof. intros n. change (inject_Z 1) with 1. field. Qed.
Lemma located_exact : forall m, (0 <= m)%Z -> located m loc_Exact m 1.
Proof. intros m H. unfold located, reps. cbn [shr_record_of_loc shr_m shr_r shr_s]. lia. Qed.

Lemma align_spec : forall m e e', let '(m', x) := shl_align m e e' in (x <= e')%Z /\ (Zpos m' * 2 ^ (x - Z.min e e') = Zpos m * 2 ^ (e - Z.min e e'))%Z /\ x = Z.min e e'.
Proof.
  intros m e e'. unfold shl_align. destruct (e' - e)%Z as [|k|k] eqn:K.
  - assert (e' = e) by lia. subst e'. rewrite Z.min_id. split; [lia|]. auto.
  - rewrite Z.min_l by lia. split; [lia|]. auto.
  - rewrite Z.min_r by lia. split; [lia|]. split; [|reflexivity]. rewrite shift_pos_correct, Z.sub_diag, Z.mul_1_r. change (Zpower_pos 2 k) with (2 ^ Zpos k)%Z. replace (e - e')%Z with (Zpos k) by lia. ring.
Qed.
Lemma dig_shift : forall m k, (0 < m)%Z -> (0 <= k)%Z -> Zdigits2 (m * 2 ^ k) = (Zdigits2 m + k)%Z.
Proof.
  intros m k M K. destruct (dig_bound m M) as (A & B). pose proof (Z.pow_pos_nonneg 2 k). apply dig_unique; [|nia|lia].
  replace (Zdigits2 m + k - 1)%Z with (Zdigits2 m - 1 + k)%Z by lia. rewrite !Z.pow_add_r by lia. nia.
Qed.

Lemma binary_rounds : forall s m e, rounds (binary_round dprec demax s m e) s (inject_Z (Zpos m) * p2 e).
Proof.
  intros s m e. unfold binary_round. pose proof (align_spec m e (fx (Zpos (digits2_pos m) + e))) as A. destruct (shl_align _ _ _) as [m' x]. destruct A as (A1 & A2 & A3).
  rewrite A3 in A2. rewrite Z.sub_diag, Z.mul_1_r in A2. rewrite <- A3 in A2.
  assert (V : inject_Z (Zpos m) * p2 e == inject_Z (Zpos m') / inject_Z 1 * p2 x).
  { rewrite div_1, A2, inject_Z_mult, p2_Z by lia. rewrite <- Qmult_assoc, <- p2_add. replace (e - x + x)%Z with e by lia. reflexivity. }
  exists (Zpos m'), x, loc_Exact, (Zpos m'), 1%Z. split; [reflexivity|]. split; [left; lia|]. split; [apply located_exact; lia|]. split; [|exact V].
  rewrite A2, dig_shift by lia. cbn [Zdigits2]. replace (Z.pos (digits2_pos m) + (e - x) + x)%Z with (Z.pos (digits2_pos m) + e)%Z by lia. exact A1.
Qed.
Lemma normalize_near : forall z e s, Qabs (inject_Z z) * p2 e < p2 1023 -> near (binary_normalize dprec demax z e s) (inject_Z z * p2 e).
Proof.
  intros z e s B. destruct z as [|m|m]; cbn [binary_normalize].
  - rewrite Qmult_0_l. apply near_exact; reflexivity.
  - change (inject_Z (Z.pos m) * p2 e) with (inject_Z (Zpos m) * p2 e) in *. setoid_replace (inject_Z (Zpos m) * p2 e) with (sgn false * (inject_Z (Zpos m) * p2 e)) by (unfold sgn; ring).
    now apply rounds_near; [apply binary_rounds|].
  - setoid_replace (inject_Z (Zneg m) * p2 e) with (sgn true * (inject_Z (Zpos m) * p2 e)) by (unfold sgn; change (Zneg m) with (- Zpos m)%Z; rewrite inject_Z_opp; ring).
    now apply rounds_near; [apply binary_rounds|].
Qed.
Lemma of_Z_near : forall z, Qabs (inject_Z z) < p2 1023 -> near (dbl_of_Z z) (inject_Z z).
Proof.
  intros z B. setoid_replace (inject_Z z) with (inject_Z z * p2 0) by (change (p2 0) with 1; ring). apply normalize_near. change (p2 0) with 1. now rewrite Qmult_1_r.
Qed.

Lemma div_located : forall a b, (0 < b)%Z -> (0 <= a)%Z -> located (a / b) (new_location b (a mod b)) a b.
Proof.
  intros a b B A. pose proof (Z.div_mod a b ltac:(lia)) as E. pose proof (Z.mod_pos_bound a b B) as M. pose proof (Z.div_pos a b A B) as P.
  unfold located, new_location. assert (X : (a - a / b * b = a mod b)%Z) by lia. set (r := (a mod b)%Z) in *.
  destruct (Z.even b) eqn:EV.
  - unfold new_location_even. destruct (Zeq_bool r 0) eqn:Z0.
    + apply Zeq_bool_eq in Z0. unfold reps. cbn [shr_record_of_loc shr_m shr_r shr_s]. rewrite X. lia.
    + apply Zeq_bool_neq in Z0. unfold reps. destruct (Z.compare_spec (2 * r) b); cbn [shr_record_of_loc shr_m shr_r shr_s]; rewrite X; lia.
  - assert (OD : exists h, (b = 2 * h + 1)%Z) by (apply Z.odd_spec; rewrite <- Z.negb_even, EV; reflexivity). destruct OD as (h & OD).
    unfold new_location_odd. destruct (Zeq_bool r 0) eqn:Z0.
    + apply Zeq_bool_eq in Z0. unfold reps. cbn [shr_record_of_loc shr_m shr_r shr_s]. rewrite X. lia.
    + apply Zeq_bool_neq in Z0. unfold reps. destruct (Z.compare_spec (2 * r + 1) b); cbn [shr_record_of_loc shr_m shr_r shr_s]; rewrite X; lia.
Qed.
Lemma div_rounds : forall s m1 e1 s' m2 e2,
  rounds (ddiv (S754_finite s m1 e1) (S754_finite s' m2 e2)) (xorb s s') (inject_Z (Zpos m1) / inject_Z (Zpos m2) * p2 (e1 - e2)).
Proof.
  intros s m1 e1 s' m2 e2. set (x := inject_Z (Zpos m1) / inject_Z (Zpos m2) * p2 (e1 - e2)). unfold ddiv, SFdiv, SFdiv_core_binary. cbv zeta.
  set (d1 := Zdigits2 (Zpos m1)). set (d2 := Zdigits2 (Zpos m2)). set (e' := Z.min (fexp dprec demax (d1 + e1 - (d2 + e2))) (e1 - e2)).
  set (k := (e1 - e2 - e')%Z). assert (K : (0 <= k)%Z) by (unfold k, e'; lia).
  assert (MM : match k with 0%Z => Zpos m1 | Zpos _ => Z.shiftl (Zpos m1) k | Zneg _ => 0%Z end = (Zpos m1 * 2 ^ k)%Z).
  { destruct k as [|k'|k']; [cbn [Z.pow]; lia|now rewrite Z.shiftl_mul_pow2 by lia|lia]. }
  rewrite MM. set (a := (Zpos m1 * 2 ^ k)%Z). pose proof (Z.pow_pos_nonneg 2 k ltac:(lia) K) as PK. assert (AP : (0 < a)%Z) by (unfold a; nia).
  assert (DE : Z.div_eucl a (Zpos m2) = (a / Zpos m2, a mod Zpos m2)%Z) by (unfold Z.div, Z.modulo; destruct (Z.div_eucl a (Zpos m2)); reflexivity).
  rewrite DE. set (q := (a / Zpos m2)%Z).
  assert (V : x == inject_Z a / inject_Z (Zpos m2) * p2 e').
  { unfold x, a. rewrite inject_Z_mult, p2_Z by exact K. replace (e1 - e2)%Z with (k + e')%Z by (unfold k; lia). rewrite p2_add. field.
    apply Qnot_eq_sym, Qlt_not_eq. reflexivity. }
  destruct (dig_bound (Zpos m1) ltac:(lia)) as (D1 & D1a & D1b). destruct (dig_bound (Zpos m2) ltac:(lia)) as (D2 & D2a & D2b). fold d1 in D1, D1a, D1b. fold d2 in D2, D2a, D2b.
  assert (QD : (0 <= d1 + k - d2 - 1)%Z -> (0 < q)%Z /\ (d1 + k - d2 <= Zdigits2 q)%Z).
  { intros H. assert (G : (2 ^ (d1 + k - d2 - 1) <= q)%Z).
    { apply Z.div_le_lower_bound; [lia|]. unfold a. assert (2 ^ d2 * 2 ^ (d1 + k - d2 - 1) = 2 ^ (d1 - 1) * 2 ^ k)%Z by (rewrite <- !Z.pow_add_r by lia; f_equal; lia).
      pose proof (Z.pow_pos_nonneg 2 (d1 + k - d2 - 1)). nia. }
    pose proof (Z.pow_pos_nonneg 2 (d1 + k - d2 - 1) ltac:(lia) H). assert (QP : (0 < q)%Z) by lia. split; [exact QP|].
    destruct (dig_bound q QP) as (_ & _ & QB). destruct (Z.le_gt_cases (d1 + k - d2) (Zdigits2 q)) as [|W]; auto. exfalso.
    assert (2 ^ Zdigits2 q <= 2 ^ (d1 + k - d2 - 1))%Z by (apply Z.pow_le_mono_r; lia). lia. }
  exists q, e', (new_location (Zpos m2) (a mod Zpos m2)), a, (Zpos m2). split; [reflexivity|]. split; [|split; [|split; [|exact V]]].
  - unfold starts. destruct (Z.le_gt_cases 0 (d1 + k - d2 - 1)) as [H|H]; [left; now apply QD|]. pose proof (Z.div_pos a (Zpos m2) ltac:(lia) ltac:(lia)) as Q0. fold q in Q0.
    destruct (Z.eq_dec q 0) as [->|]; [right|left; lia]. split; [reflexivity|].
    unfold k, e' in *. rewrite fx_max in *. lia.
  - apply div_located; lia.
  - unfold k, e' in *. destruct (Z.le_gt_cases 0 (d1 + (e1 - e2 - Z.min (fx (d1 + e1 - (d2 + e2))) (e1 - e2)) - d2 - 1)) as [H|H]; [destruct (QD H)|]; rewrite !fx_max in *; lia.
Qed.

Lemma normalize_double : forall z e s, is_double (binary_normalize dprec demax z e s).
Proof. intros [|m|m] e s; [reflexivity| |]; eapply rounds_double, binary_rounds. Qed.
Lemma decimal_double : forall s n e, is_double (dbl_of_decimal s n e).
Proof.
  intros s [|p] e; [reflexivity|]. unfold dbl_of_decimal. destruct e; try apply normalize_double. unfold dbl_of_ratio. eapply rounds_double, div_rounds.
Qed.

(** the exact value of a number in decimal notation *)
Definition dec_val (s : bool) (n : N) (e : Z) : Q := sgn s * inject_Z (Z.of_N n) * (10 # 1) ^ e.
Lemma ten_neg : forall q, (10 # 1) ^ Zneg q == 1 / inject_Z (Zpos (Pos.pow 10 q)).
Proof.
  intros q. change ((10 # 1) ^ Zneg q) with (/ ((10 # 1) ^ Zpos q)). change (10 # 1) with (inject_Z 10). rewrite <- Zpower_Qpower by lia.
  rewrite <- Pos2Z.inj_pow. field. apply Qnot_eq_sym, Qlt_not_eq. reflexivity.
Qed.
Lemma decimal_near : forall s n e, Qabs (dec_val s n e) < p2 1023 -> near (dbl_of_decimal s n e) (dec_val s n e).
Proof.
  intros s [|p] e B.
  - setoid_replace (dec_val s 0 e) with 0 by (unfold dec_val; cbn [Z.of_N]; ring). apply near_exact; reflexivity.
  - unfold dbl_of_decimal. cbn [dec_val] in *. unfold dec_val in *. cbn [Z.of_N] in *.
    assert (TP : forall z, (0 <= z)%Z -> (10 # 1) ^ z == inject_Z (10 ^ z)) by (intros z Z; change (10 # 1) with (inject_Z 10); now rewrite Zpower_Qpower).
    assert (NM : forall z t, Qabs (inject_Z z) < p2 1023 -> near (binary_normalize dprec demax z 0 t) (inject_Z z)).
    { intros z t Z. setoid_replace (inject_Z z) with (inject_Z z * p2 0) by (change (p2 0) with 1; ring). apply normalize_near. change (p2 0) with 1. now rewrite Qmult_1_r. }
    assert (SG : forall z : Z, sgn s * inject_Z z == inject_Z (if s then - z else z)) by (intros z; destruct s; unfold sgn; rewrite ?inject_Z_opp; ring).
    destruct e as [|q|q].
    + change ((10 # 1) ^ 0) with 1 in *. rewrite Qmult_1_r in *. rewrite SG in *. change (- Zpos p)%Z with (Zneg p) in *. now apply NM.
    + rewrite TP in * by lia. rewrite <- Qmult_assoc, <- inject_Z_mult, SG in *. cbv zeta. now apply NM.
    + rewrite ten_neg in *. unfold dbl_of_ratio. pose proof (div_rounds s p 0 false (10 ^ q) 0) as R. change (p2 (0 - 0)) with 1 in R. rewrite xorb_false_r in R.
      assert (P : 0 < inject_Z (Zpos (10 ^ q))) by reflexivity.
      assert (V : sgn s * inject_Z (Zpos p) * (1 / inject_Z (Zpos (10 ^ q))) == sgn s * (inject_Z (Zpos p) / inject_Z (Zpos (10 ^ q)) * 1)) by (field; apply Qnot_eq_sym, Qlt_not_eq; reflexivity).
      rewrite V in *.
      apply rounds_near; [exact R|]. rewrite Qabs_sgn in B. eapply Qle_lt_trans; [apply Qle_Qabs|exact B].
Qed.

(** products of doubles *)
Lemma canonical_exp : forall s m e, is_double (S754_finite s m e) -> e = fx (Zdigits2 (Zpos m) + e) /\ (e <= 971)%Z.
Proof.
  intros s m e H. unfold is_double, valid_binary, bounded, canonical_mantissa in H. apply andb_true_iff in H as [A B]. apply Zeq_bool_eq in A. apply Z.leb_le in B.
  split; [symmetry; exact A|exact B].
Qed.
Lemma mul_dig : forall a b, (0 < a)%Z -> (0 < b)%Z -> (Zdigits2 a + Zdigits2 b - 1 <= Zdigits2 (a * b))%Z.
Proof.
  intros a b A B. destruct (dig_bound a A) as (A1 & A2 & _). destruct (dig_bound b B) as (B1 & B2 & _). destruct (dig_bound (a * b)) as (C1 & _ & C2); [nia|].
  destruct (Z.le_gt_cases (Zdigits2 a + Zdigits2 b - 1) (Zdigits2 (a * b))) as [|W]; auto. exfalso.
  assert (2 ^ Zdigits2 (a * b) <= 2 ^ (Zdigits2 a - 1 + (Zdigits2 b - 1)))%Z by (apply Z.pow_le_mono_r; lia). rewrite Z.pow_add_r in H by lia.
  pose proof (Z.pow_pos_nonneg 2 (Zdigits2 a - 1)). pose proof (Z.pow_pos_nonneg 2 (Zdigits2 b - 1)). nia.
Qed.
Lemma mul_rounds : forall s m e s' m' e', is_double (S754_finite s m e) -> is_double (S754_finite s' m' e') ->
  rounds (dmul (S754_finite s m e) (S754_finite s' m' e')) (xorb s s') (inject_Z (Zpos m) * p2 e * (inject_Z (Zpos m') * p2 e')).
Proof.
  intros s m e s' m' e' D D'. destruct (canonical_exp _ _ _ D) as [C1 _]. destruct (canonical_exp _ _ _ D') as [C2 _].
  exists (Zpos (m * m')), (e + e')%Z, loc_Exact, (Zpos (m * m')), 1%Z. split; [reflexivity|]. split; [left; lia|]. split; [apply located_exact; lia|]. split.
  - rewrite Pos2Z.inj_mul. pose proof (mul_dig (Zpos m) (Zpos m') ltac:(lia) ltac:(lia)) as M. pose proof (proj1 (dig_bound (Zpos m) ltac:(lia))). pose proof (proj1 (dig_bound (Zpos m') ltac:(lia))).
    rewrite fx_max in *. lia.
  - rewrite div_1, Pos2Z.inj_mul, inject_Z_mult, p2_add. ring.
Qed.
Lemma mul_near : forall a b x y, is_double a -> is_double b -> dval a = Some x -> dval b = Some y -> Qabs (x * y) < p2 1023 -> near (dmul a b) (x * y).
Proof.
  intros a b x y A B VA VB H. destruct a as [s|s| |s m e]; try discriminate VA; destruct b as [s'|s'| |s' m' e']; try discriminate VB; unfold dmul, SFmul.
  - assert (x = 0) as -> by (cbn in VA; congruence). rewrite Qmult_0_l. apply near_exact; reflexivity.
  - assert (x = 0) as -> by (cbn in VA; congruence). rewrite Qmult_0_l. apply near_exact; reflexivity.
  - assert (y = 0) as -> by (cbn in VB; congruence). rewrite Qmult_0_r. apply near_exact; reflexivity.
  - destruct (dval_p2 s m e) as (x' & E1 & X). assert (x' = x) as -> by congruence. destruct (dval_p2 s' m' e') as (y' & E2 & Y). assert (y' = y) as -> by congruence.
    pose proof (mul_rounds _ _ _ _ _ _ A B) as R.
    assert (V : x * y == sgn (xorb s s') * (inject_Z (Zpos m) * p2 e * (inject_Z (Zpos m') * p2 e'))) by (rewrite X, Y; destruct s, s'; unfold sgn, xorb; ring).
    rewrite V in *. apply rounds_near; [exact R|]. rewrite Qabs_sgn in H. eapply Qle_lt_trans; [apply Qle_Qabs|exact H].
Qed.
(** sums of doubles *)
Lemma align_value : forall s m e ez, (ez <= e)%Z -> inject_Z (cond_Zopp s (Zpos (fst (shl_align m e ez)))) * p2 ez == sgn s * inject_Z (Zpos m) * p2 e.
Proof.
  intros s m e ez H. pose proof (align_spec m e ez) as A. destruct (shl_align m e ez) as [m' x]. destruct A as (_ & A & X). cbn [fst].
  rewrite Z.min_r in * by lia. subst x. rewrite Z.sub_diag, Z.mul_1_r in A. rewrite A.
  assert (Q : inject_Z (cond_Zopp s (Zpos m * 2 ^ (e - ez))) == sgn s * inject_Z (Zpos m) * p2 (e - ez)).
  { rewrite <- p2_Z by lia. destruct s; unfold cond_Zopp, sgn; rewrite ?inject_Z_opp, inject_Z_mult; ring. }
  rewrite Q, <- Qmult_assoc, <- p2_add. replace (e - ez + ez)%Z with e by lia. reflexivity.
Qed.
Lemma add_near : forall a b x y, is_double a -> is_double b -> dval a = Some x -> dval b = Some y -> Qabs (x + y) < p2 1023 -> near (dadd a b) (x + y).
Proof.
  intros a b x y A B VA VB H. destruct a as [s|s| |s m e]; try discriminate VA; destruct b as [s'|s'| |s' m' e']; try discriminate VB; unfold dadd, SFadd.
  - assert (x = 0) as -> by (cbn in VA; congruence). assert (y = 0) as -> by (cbn in VB; congruence). change (0 + 0) with 0. destruct (Bool.eqb s s'); apply near_exact; reflexivity.
  - assert (x = 0) as -> by (cbn in VA; congruence). rewrite Qplus_0_l. now apply near_exact.
  - assert (y = 0) as -> by (cbn in VB; congruence). rewrite Qplus_0_r. now apply near_exact.
  - destruct (dval_p2 s m e) as (x' & E1 & X). assert (x' = x) as -> by congruence. destruct (dval_p2 s' m' e') as (y' & E2 & Y). assert (y' = y) as -> by congruence.
    set (ez := Z.min e e'). pose proof (align_value s m e ez ltac:(lia)) as P. pose proof (align_value s' m' e' ez ltac:(lia)) as P'.
    cbv zeta. fold ez. set (z := (cond_Zopp s (Zpos (fst (shl_align m e ez))) + cond_Zopp s' (Zpos (fst (shl_align m' e' ez))))%Z) in *.
    assert (V : x + y == inject_Z z * p2 ez) by (unfold z; rewrite inject_Z_plus, Qmult_plus_distr_l, P, P', X, Y; reflexivity).
    rewrite V in *. apply normalize_near. rewrite Qabs_Qmult in H. rewrite (Qabs_pos (p2 ez)) in H by apply Qlt_le_weak, p2_pos. exact H.
Qed.

(** negation, differences, quotients *)
Lemma opp_double : forall d, is_double d -> is_double (SFopp d).
Proof. now intros [s|s| |s m e] H. Qed.
Lemma opp_dval : forall d x, dval d = Some x -> exists y, dval (SFopp d) = Some y /\ y == - x.
Proof.
  intros [s|s| |s m e] x V; try discriminate V.
  - assert (x = 0) as -> by (cbn in V; congruence). exists 0. split; reflexivity.
  - destruct (dval_p2 s m e) as (x' & E1 & X). assert (x' = x) as -> by congruence. cbn [SFopp]. destruct (dval_p2 (negb s) m e) as (y & E & Y). exists y. split; [exact E|].
    rewrite Y, X. destruct s; unfold sgn, negb; ring.
Qed.
Lemma opp_near : forall d x, near d x -> near (SFopp d) (- x).
Proof.
  intros d x (I & v & V & B). destruct (opp_dval d v V) as (y & VY & Y). split; [now apply opp_double|]. exists y. split; [exact VY|].
  rewrite Y, (Qabs_opp x). setoid_replace (- v - - x) with (- (v - x)) by ring. now rewrite Qabs_opp.
Qed.
Lemma sub_add : forall a b, dsub a b = dadd a (SFopp b).
Proof.
  intros [s|s| |s m e] [s'|s'| |s' m' e']; try reflexivity. unfold dsub, dadd, SFsub, SFadd. cbn [SFopp]. cbv zeta.
  set (u := cond_Zopp s _). set (w := Zpos (fst (shl_align m' e' _))). replace (u - cond_Zopp s' w)%Z with (u + cond_Zopp (negb s') w)%Z; [reflexivity|].
  destruct s'; unfold cond_Zopp, negb; lia.
Qed.
Lemma sub_near : forall a b x y, is_double a -> is_double b -> dval a = Some x -> dval b = Some y -> Qabs (x - y) < p2 1023 -> near (dsub a b) (x - y).
Proof.
  intros a b x y A B VA VB H. rewrite sub_add. destruct (opp_dval b y VB) as (y' & V' & Y). assert (E : x - y == x + y') by (rewrite Y; ring).
  rewrite E in *. apply add_near; auto. now apply opp_double.
Qed.
Lemma div_near : forall a b x y, is_double a -> is_double b -> dval a = Some x -> dval b = Some y -> ~ y == 0 -> Qabs (x / y) < p2 1023 -> near (ddiv a b) (x / y).
Proof.
  intros a b x y A B VA VB N H. destruct a as [s|s| |s m e]; try discriminate VA; destruct b as [s'|s'| |s' m' e']; try discriminate VB.
  - exfalso. apply N. cbn in VB. assert (y = 0) as -> by congruence. reflexivity.
  - assert (x = 0) as -> by (cbn in VA; congruence). setoid_replace (0 / y) with 0 by (field; exact N). apply near_exact; reflexivity.
  - exfalso. apply N. cbn in VB. assert (y = 0) as -> by congruence. reflexivity.
  - destruct (dval_p2 s m e) as (x' & E1 & X). assert (x' = x) as -> by congruence. destruct (dval_p2 s' m' e') as (y' & E2 & Y). assert (y' = y) as -> by congruence.
    pose proof (div_rounds s m e s' m' e') as R.
    assert (PP : forall k, ~ p2 k == 0) by (intros k; apply Qnot_eq_sym, Qlt_not_eq, p2_pos).
    assert (V : x / y == sgn (xorb s s') * (inject_Z (Zpos m) / inject_Z (Zpos m') * p2 (e - e'))).
    { rewrite X, Y. replace e with (e - e' + e')%Z at 1 by lia. rewrite p2_add.
      assert (NS : forall t, ~ sgn t == 0) by (now intros []). destruct s, s'; unfold sgn, xorb; field; repeat split; try apply PP; try (apply Qnot_eq_sym, Qlt_not_eq; reflexivity). }
    rewrite V in *. apply rounds_near; [exact R|]. rewrite Qabs_sgn in H. eapply Qle_lt_trans; [apply Qle_Qabs|exact H].
Qed.

(** conversion to an integer drops the fraction *)
Lemma trunc_near : forall d q, dval d = Some q -> exists (s : bool) (w : Z) (r : Q), dtrunc d = Some (if s then - w else w)%Z /\ (0 <= w)%Z /\
  q == sgn s * r /\ inject_Z w <= r /\ r < inject_Z w + 1.
Proof.
  intros [s|s| |s m e] q V; try discriminate V.
  - assert (q = 0) as -> by (cbn in V; congruence). exists false, 0%Z, 0. repeat split; try discriminate; lia.
  - cbn [dtrunc dval] in *. cbv zeta in *.
    assert (E : q = match e with Zneg p => (if s then Zneg m else Zpos m) # Pos.pow 2 p | _ => inject_Z ((if s then Zneg m else Zpos m) * 2 ^ e) end) by congruence.
    clear V. subst q.
    assert (W : forall z, inject_Z z <= inject_Z z /\ inject_Z z < inject_Z z + 1) by (intros z; split; [apply Qle_refl|unfold Qlt, Qplus, inject_Z, Qnum, Qden; lia]).
    destruct e as [|p|p].
    + exists s, (Zpos m * 2 ^ 0)%Z, (inject_Z (Zpos m * 2 ^ 0)). split; [reflexivity|]. split; [lia|]. split; [destruct s; unfold sgn, Qeq; cbn; lia|apply W].
    + exists s, (Zpos m * 2 ^ Zpos p)%Z, (inject_Z (Zpos m * 2 ^ Zpos p)). split; [reflexivity|]. split; [lia|].
      split; [destruct s; unfold sgn; [change (Zneg m) with (- Zpos m)%Z; rewrite Z.mul_opp_l, inject_Z_opp; ring|ring]|apply W].
    + exists s, (Zpos m / 2 ^ Zpos p)%Z, (Zpos m # Pos.pow 2 p). split; [reflexivity|]. rewrite <- Pos2Z.inj_pow. set (D := Pos.pow 2 p).
      pose proof (Z.div_mod (Zpos m) (Zpos D) ltac:(lia)) as DM. pose proof (Z.mod_pos_bound (Zpos m) (Zpos D) ltac:(lia)). split; [apply Z.div_pos; lia|].
      split; [destruct s; unfold sgn, Qeq; cbn [Qnum Qden Qmult Qopp Z.opp Pos.mul]; lia|].
      unfold Qle, Qlt, Qminus, Qplus, Qopp, inject_Z, Qnum, Qden. split; lia.
Qed.
(** next to an integer: that integer, or one step towards zero *)
Lemma trunc_step : forall d q z, dval d = Some q -> Qabs (q - inject_Z z) < 1 -> dtrunc d = Some z \/ dtrunc d = Some (z - Z.sgn z)%Z.
Proof.
  intros d q z V B. destruct (trunc_near d q V) as (s & w & r & T & W & E & L & U). rewrite T. apply Qabs_Qlt_condition in B as [B1 B2]. rewrite E in B1, B2.
  assert (Z0 : (z - 1 < (if s then - w else w) + (if s then 0 else 1))%Z /\ ((if s then - w else w) - (if s then 1 else 0) < z + 1)%Z).
  { unfold Z.sub. split; rewrite Zlt_Qlt; destruct s; unfold sgn in *; repeat rewrite inject_Z_plus; repeat rewrite inject_Z_opp; unfold inject_Z in *; lra. }
  assert (X : (if s then - w else w)%Z = z \/ (if s then - w else w)%Z = (z - Z.sgn z)%Z); [|now destruct X as [->| ->]; auto].
  destruct s; destruct z; cbn [Z.sgn] in *; lia.
Qed.
