(** Rounding errors of the conversions with doubles. *)

From Coq Require Import ZArith NArith QArith Qabs List String Ascii Bool Lia Lqa.
From Coq Require Import Floats.SpecFloat.
From Verif Require Import Base Dbl CSyntax CSem Types Formatter ConvSpec SigSpec DblPrint DblRound PhysSpec.
Import ListNotations.
Open Scope Q_scope.

(** relative error of one rounding, a bound for its absolute error, a bound for the error of printed numbers *)
Definition ulp : Q := 1 # 9007199254740992.
Definition sub : Q := 1 # 1000000000000000000000000000000000000000000000000000000000000.
Definition prt : Q := 105 # 100000000000.
Definition prt2 : Q := 10501 # 10000000000000.
Definition big : Q := inject_Z (10 ^ 30).

Lemma p2_ulp : p2 (-53) == ulp.
Proof. reflexivity. Qed.
Lemma p2_sub : p2 (-1075) <= sub.
Proof. vm_compute. discriminate. Qed.
Lemma p2_big : inject_Z (10 ^ 100) < p2 1023.
Proof. vm_compute. reflexivity. Qed.

Lemma near_bound : forall d x, near d x -> is_double d /\ exists v, dval d = Some v /\ Qabs (v - x) <= Qabs x * ulp + sub.
Proof.
  intros d x (I & v & V & B). split; [exact I|]. exists v. split; [exact V|]. rewrite p2_ulp in B. pose proof p2_sub. lra.
Qed.

Lemma tri : forall x y, Qabs (x + y) <= Qabs x + Qabs y.
Proof. exact Qabs_triangle. Qed.
Lemma tri3 : forall x y z, Qabs (x + y + z) <= Qabs x + Qabs y + Qabs z.
Proof. intros. pose proof (tri (x + y) z). pose proof (tri x y). lra. Qed.
Lemma far : forall x y d, Qabs (x - y) <= d -> Qabs x <= Qabs y + d.
Proof. intros x y d H. setoid_replace x with (y + (x - y)) at 1 by ring. pose proof (tri y (x - y)). lra. Qed.
Lemma mul_le : forall a b c d, 0 <= a -> a <= b -> 0 <= c -> c <= d -> a * c <= b * d.
Proof. intros. apply Qmult_le_compat_nonneg; auto. Qed.
Lemma abs_mul : forall x y, Qabs (x * y) == Qabs x * Qabs y.
Proof. exact Qabs_Qmult. Qed.
Lemma nn : forall x, 0 <= Qabs x.
Proof. exact Qabs_nonneg. Qed.

(** a printed number *)
Lemma printed_close : forall x L v w, Qabs x <= big -> Qabs (v - x) <= Qabs x * ulp + sub -> Qabs (L - v) < prt -> Qabs (w - L) <= Qabs L * ulp + sub ->
  Qabs (w - x) <= prt2 + 3 * ulp * Qabs x.
Proof.
  intros x L v w BX A B C. assert (E : w - x == (w - L) + (L - v) + (v - x)) by ring. rewrite E. pose proof (tri3 (w - L) (L - v) (v - x)).
  pose proof (far v x _ A) as FV. assert (FL : Qabs L <= Qabs v + prt) by (apply far; lra).
  unfold ulp, sub, prt, prt2 in *. pose proof (nn x). lra.
Qed.

Section From.
Variables (z F G zd F' G' p v : Q).
Hypothesis BZ : Qabs z <= inject_Z (2 ^ 64).
Hypothesis BF : Qabs F <= big.
Hypothesis BG : Qabs G <= big.
Hypothesis HZ : Qabs (zd - z) <= Qabs z * ulp + sub.
Hypothesis HF : Qabs (F' - F) <= prt2 + 3 * ulp * Qabs F.
Hypothesis HG : Qabs (G' - G) <= prt2 + 3 * ulp * Qabs G.

Lemma F_size : Qabs F' <= Qabs F * (1 + 3 * ulp) + prt2.
Proof. pose proof (far _ _ _ HF). lra. Qed.
Lemma G_size : Qabs G' <= Qabs G * (1 + 3 * ulp) + prt2.
Proof. pose proof (far _ _ _ HG). lra. Qed.
Lemma z_size : Qabs zd <= Qabs z * (1 + ulp) + sub.
Proof. pose proof (far _ _ _ HZ). lra. Qed.

(** the product *)
Lemma prod_close : Qabs (zd * F' - z * F) <= Qabs z * Qabs F * (5 * ulp) + Qabs z * (prt2 * (1 + ulp)) + (1 # 100000000000000000000000000000).
Proof.
  assert (E : zd * F' - z * F == (zd - z) * F' + z * (F' - F)) by ring. rewrite E. pose proof (tri ((zd - z) * F') (z * (F' - F))) as T.
  rewrite !abs_mul in T. pose proof (mul_le _ _ _ _ (nn (zd - z)) HZ (nn F') F_size) as M1.
  pose proof (mul_le _ _ _ _ (nn z) (Qle_refl _) (nn (F' - F)) HF) as M2.
  pose proof (nn z) as NZ. pose proof (nn F) as NF. pose proof (mul_le 0 _ 0 _ (Qle_refl 0) NZ (Qle_refl 0) NF) as NP.
  assert (X1 : (Qabs z * ulp + sub) * (Qabs F * (1 + 3 * ulp) + prt2) ==
    Qabs z * Qabs F * (ulp * (1 + 3 * ulp)) + Qabs z * (ulp * prt2) + Qabs F * (sub * (1 + 3 * ulp)) + sub * prt2) by ring.
  assert (X2 : Qabs z * (prt2 + 3 * ulp * Qabs F) == Qabs z * Qabs F * (3 * ulp) + Qabs z * prt2) by ring.
  set (m := Qabs z * Qabs F) in *. unfold big, ulp, sub, prt2, inject_Z in *. rewrite X1 in M1. rewrite X2 in M2. clear X1 X2 E.
  set (a := Qabs z) in *. set (b := Qabs F) in *. clearbody m a b. change (10 ^ 30 # 1) with (1000000000000000000000000000000 # 1) in *. lra.
Qed.
Lemma prod_size : Qabs (zd * F') < inject_Z (10 ^ 60).
Proof.
  pose proof (far _ _ _ prod_close) as S. rewrite (abs_mul z F) in S. pose proof (mul_le _ _ _ _ (nn z) BZ (nn F) BF) as M.
  pose proof (nn z) as NZ. unfold big, ulp, sub, prt2 in *. set (m := Qabs z * Qabs F) in *. set (a := Qabs z) in *. clearbody m a.
  change (inject_Z (2 ^ 64) * inject_Z (10 ^ 30)) with (18446744073709551616000000000000000000000000000000 # 1) in M.
  unfold inject_Z in *. change (2 ^ 64 # 1) with (18446744073709551616 # 1) in *.
  change (10 ^ 60 # 1) with (1000000000000000000000000000000000000000000000000000000000000 # 1). lra.
Qed.

Hypothesis HP : Qabs (p - zd * F') <= Qabs (zd * F') * ulp + sub.
Lemma p_close : Qabs (p - z * F) <= Qabs z * Qabs F * (65 # 10) * ulp + Qabs z * (prt2 * (1 + 3 * ulp)) + (2 # 100000000000000000000000000000).
Proof.
  assert (E : p - z * F == (p - zd * F') + (zd * F' - z * F)) by ring. rewrite E. pose proof (tri (p - zd * F') (zd * F' - z * F)) as T.
  pose proof prod_close as C. pose proof (far _ _ _ C) as S. rewrite (abs_mul z F) in S. pose proof (nn z) as NZ. pose proof (nn F) as NF.
  pose proof (mul_le 0 _ 0 _ (Qle_refl 0) NZ (Qle_refl 0) NF) as NP. unfold ulp, sub, prt2 in *.
  set (m := Qabs z * Qabs F) in *. set (a := Qabs z) in *. clearbody m a. lra.
Qed.
Lemma sum_size : Qabs (p + G') < inject_Z (10 ^ 61).
Proof.
  pose proof (tri p G') as T. pose proof prod_size as S. pose proof (far _ _ _ HP) as X. pose proof G_size as Y. unfold ulp, sub, prt2, big, inject_Z in *.
  change (10 ^ 30 # 1) with (1000000000000000000000000000000 # 1) in *.
  change (10 ^ 60 # 1) with (1000000000000000000000000000000000000000000000000000000000000 # 1) in *.
  change (10 ^ 61 # 1) with (10000000000000000000000000000000000000000000000000000000000000 # 1) in *. lra.
Qed.

Hypothesis HV : Qabs (v - (p + G')) <= Qabs (p + G') * ulp + sub.
Theorem from_close : Qabs (v - (z * F + G)) <= (Qabs z + 1) * (106 # 100000000000) + (Qabs (z * F) + Qabs G) * (1 # 1125899906842624).
Proof.
  assert (E : v - (z * F + G) == (v - (p + G')) + (p - z * F) + (G' - G)) by ring. rewrite E. pose proof (tri3 (v - (p + G')) (p - z * F) (G' - G)) as T.
  pose proof (tri p G') as S. pose proof p_close as C. pose proof (far _ _ _ C) as SP. rewrite (abs_mul z F) in *. pose proof G_size as SG.
  pose proof (nn z) as NZ. pose proof (nn F) as NF. pose proof (mul_le 0 _ 0 _ (Qle_refl 0) NZ (Qle_refl 0) NF) as NP. pose proof (nn G) as NG.
  clear E. unfold ulp, sub, prt2 in *. set (m := Qabs z * Qabs F) in *. set (a := Qabs z) in *. set (o := Qabs G) in *. clearbody m a o. lra.
Qed.
End From.

Section To.
(** the way back: [q] is close to the physical value of [z] *)
Variables (z F G q F' G' s r : Q).
Hypothesis BZ : Qabs z <= inject_Z (2 ^ 64).
Hypothesis BF : Qabs F <= big.
Hypothesis BG : Qabs G <= big.
Definition tol : Q := (Qabs z + 1) * (106 # 100000000000) + (Qabs (z * F) + Qabs G) * (1 # 1125899906842624).
Hypothesis FINE : 8 * tol <= Qabs F.
Hypothesis HQ : Qabs (q - (z * F + G)) <= tol.
Hypothesis HF : Qabs (F' - F) <= prt2 + 3 * ulp * Qabs F.
Hypothesis HG : Qabs (G' - G) <= prt2 + 3 * ulp * Qabs G.

Lemma F_pos : (3 # 4) * Qabs F <= Qabs F'.
Proof.
  assert (H : Qabs (F - F') <= prt2 + 3 * ulp * Qabs F) by (rewrite <- Qabs_opp; setoid_replace (- (F - F')) with (F' - F) by ring; exact HF).
  pose proof (far _ _ _ H) as X. unfold tol in FINE. rewrite (abs_mul z F) in FINE. pose proof (nn z) as NZ. pose proof (nn F) as NF.
  pose proof (mul_le 0 _ 0 _ (Qle_refl 0) NZ (Qle_refl 0) NF) as NP. pose proof (nn G) as NG. unfold ulp, prt2 in *.
  set (m := Qabs z * Qabs F) in *. set (a := Qabs z) in *. set (o := Qabs G) in *. clearbody m a o. lra.
Qed.
Lemma diff_size : Qabs (q - G') < inject_Z (10 ^ 60).
Proof.
  assert (E : q - G' == (q - (z * F + G)) + z * F + (G - G')) by ring. rewrite E. clear E. pose proof (tri3 (q - (z * F + G)) (z * F) (G - G')) as T.
  assert (H : Qabs (G - G') <= prt2 + 3 * ulp * Qabs G) by (rewrite <- Qabs_opp; setoid_replace (- (G - G')) with (G' - G) by ring; exact HG).
  rewrite (abs_mul z F) in T. pose proof (mul_le _ _ _ _ (nn z) BZ (nn F) BF) as M. pose proof (nn F) as NF.
  unfold big, ulp, sub, prt2 in *. set (m := Qabs z * Qabs F) in *. clearbody m. 
  change (inject_Z (2 ^ 64) * inject_Z (10 ^ 30)) with (18446744073709551616000000000000000000000000000000 # 1) in M. unfold inject_Z in *.
  change (10 ^ 30 # 1) with (1000000000000000000000000000000 # 1) in *.
  change (10 ^ 60 # 1) with (1000000000000000000000000000000000000000000000000000000000000 # 1) in *. lra.
Qed.
Hypothesis HS : Qabs (s - (q - G')) <= Qabs (q - G') * ulp + sub.
(** the quotient before rounding *)
Lemma quot_num : Qabs (s - z * F') <= (45 # 10) * tol.
Proof.
  assert (E : s - z * F' == (s - (q - G')) + (q - (z * F + G)) + ((G - G') + z * (F - F'))) by ring. rewrite E. clear E.
  pose proof (tri3 (s - (q - G')) (q - (z * F + G)) ((G - G') + z * (F - F'))) as T. pose proof (tri (G - G') (z * (F - F'))) as T2.
  assert (H : Qabs (G - G') <= prt2 + 3 * ulp * Qabs G) by (rewrite <- Qabs_opp; setoid_replace (- (G - G')) with (G' - G) by ring; exact HG).
  assert (HF2 : Qabs (F - F') <= prt2 + 3 * ulp * Qabs F) by (rewrite <- Qabs_opp; setoid_replace (- (F - F')) with (F' - F) by ring; exact HF).
  assert (E : q - G' == (q - (z * F + G)) + z * F + (G - G')) by ring. pose proof (tri3 (q - (z * F + G)) (z * F) (G - G')) as T3. rewrite <- E in T3. clear E.
  rewrite abs_mul in T2, T3. pose proof (mul_le _ _ _ _ (nn z) (Qle_refl _) (nn (F - F')) HF2) as M.
  assert (X : Qabs z * (prt2 + 3 * ulp * Qabs F) == Qabs z * Qabs F * (3 * ulp) + Qabs z * prt2) by ring. rewrite X in M. clear X.
  unfold tol in *. rewrite (abs_mul z F) in *. pose proof (nn z) as NZ. pose proof (nn F) as NF. pose proof (mul_le 0 _ 0 _ (Qle_refl 0) NZ (Qle_refl 0) NF) as NP. pose proof (nn G) as NG.
  unfold ulp, sub, prt2 in *. set (m := Qabs z * Qabs F) in *. set (a := Qabs z) in *. set (o := Qabs G) in *. clearbody m a o. lra.
Qed.
Lemma tol_pos : 0 < tol.
Proof.
  unfold tol. pose proof (nn z). pose proof (nn (z * F)). pose proof (nn G). lra.
Qed.
Lemma F_nonzero : ~ F' == 0.
Proof. intros E. pose proof F_pos as P. rewrite E in P. pose proof tol_pos. change (Qabs 0) with 0 in P. lra. Qed.
Lemma quot_close : Qabs (s / F' - z) <= 4 # 5.
Proof.
  pose proof F_nonzero as NZ. assert (E : (s - z * F') == (s / F' - z) * F') by (field; exact NZ). pose proof quot_num as N. rewrite E, abs_mul in N.
  pose proof F_pos as P. pose proof tol_pos as TP. destruct (Qlt_le_dec (4 # 5) (Qabs (s / F' - z))) as [L|L]; [exfalso|exact L].
  assert (M : (4 # 5) * ((3 # 4) * Qabs F) <= Qabs (s / F' - z) * Qabs F') by (apply mul_le; [discriminate|lra|pose proof (nn F); lra|exact P]).
  lra.
Qed.
Lemma quot_size : Qabs (s / F') < inject_Z (10 ^ 60).
Proof.
  pose proof (far _ _ _ quot_close) as X. unfold inject_Z in *. change (2 ^ 64 # 1) with (18446744073709551616 # 1) in *.
  change (10 ^ 60 # 1) with (1000000000000000000000000000000000000000000000000000000000000 # 1) in *. lra.
Qed.
Hypothesis HR : Qabs (r - s / F') <= Qabs (s / F') * ulp + sub.
Lemma z_small : Qabs z <= inject_Z (2 ^ 47).
Proof.
  unfold tol in FINE. rewrite (abs_mul z F) in FINE. pose proof (nn z) as NZ. pose proof (nn F) as NF. pose proof (nn G) as NG. pose proof tol_pos as TP.
  destruct (Qlt_le_dec (inject_Z (2 ^ 47)) (Qabs z)) as [L|L]; [exfalso|exact L].
  pose proof (mul_le (inject_Z (2 ^ 47)) (Qabs z) (Qabs F) (Qabs F) ltac:(discriminate) ltac:(lra) NF (Qle_refl _)) as M.
  unfold inject_Z in *. change (2 ^ 47 # 1) with (140737488355328 # 1) in *. set (m := Qabs z * Qabs F) in *. set (a := Qabs z) in *. set (b := Qabs F) in *. set (o := Qabs G) in *.
  clearbody m a b o. lra.
Qed.
Theorem to_close : Qabs (r - z) < 1.
Proof.
  assert (E : r - z == (r - s / F') + (s / F' - z)) by ring. rewrite E. pose proof (tri (r - s / F') (s / F' - z)) as T. pose proof quot_close as C.
  pose proof (far _ _ _ C) as S. pose proof z_small as ZS. unfold ulp, sub, inject_Z in *. change (2 ^ 47 # 1) with (140737488355328 # 1) in *. lra.
Qed.
End To.

Lemma tol_same : forall z F G, tolerance z F G = tol (inject_Z z) F G.
Proof.
  intros z F G. unfold tolerance, tol. change (10 ^ 11)%positive with 100000000000%positive. change (2 ^ 50)%positive with 1125899906842624%positive. reflexivity.
Qed.
