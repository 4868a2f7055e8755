(** prt_double: shape and accuracy of printed numbers. *)

From Coq Require Import ZArith NArith QArith Qabs List String Ascii Bool Lia ZifyBool.
From Coq Require Import Floats.SpecFloat.
From Verif Require Import Base Dbl CSyntax CSem Types Formatter LineParser LexLemmas ScanSpec ScanLemmas ScanLines ScanMarks ConvSpec.
Import ListNotations.
Open Scope Z_scope.
Open Scope string_scope.

(** *** Digits *)
Definition val (s : string) : N := match num_dec 0 s with Some n => n | None => 0%N end.

Lemma num_dec_at : forall s acc, all_chars is_digit s = true ->
  num_dec acc s = Some (acc * 10 ^ N.of_nat (String.length s) + val s)%N /\ (val s < 10 ^ N.of_nat (String.length s))%N.
Proof.
  unfold val. induction s as [|c r IH]; intros acc H.
  - cbn. split; [f_equal; lia|lia].
  - cbn [all_chars] in H. apply andb_true_iff in H as [D H]. cbn [num_dec String.length]. rewrite D.
    destruct (IH (10 * acc + digit_val c)%N H) as [A B]. destruct (IH (10 * 0 + digit_val c)%N H) as [A' _].
    rewrite A, A'. rewrite Nat2N.inj_succ, N.pow_succ_r by lia.
    assert (V : (digit_val c <= 9)%N).
    { unfold is_digit, in_range, digit_val in *. cbn in D |- *. apply andb_true_iff in D as [D1 D2]. unfold code in *. cbn in *. lia. }
    split; [f_equal; lia|].
    set (P := (10 ^ N.of_nat (String.length r))%N) in *. destruct (num_dec 0 r) in *; nia.
Qed.
Lemma val_app : forall a b, all_chars is_digit a = true -> all_chars is_digit b = true ->
  val (a ++ b) = (val a * 10 ^ N.of_nat (String.length b) + val b)%N.
Proof.
  intros a b A B. unfold val at 1.
  assert (S : forall acc, num_dec acc (a ++ b) = match num_dec acc a with Some k => num_dec k b | None => None end).
  { clear. induction a as [|c r IH]; intros acc; [reflexivity|]. cbn [String.append num_dec]. destruct (is_digit c); auto. }
  rewrite S. destruct (num_dec_at a 0 A) as [E _]. rewrite E. destruct (num_dec_at b (0 * 10 ^ N.of_nat (String.length a) + val a) B) as [F _].
  rewrite F. lia.
Qed.
Lemma val_dec : forall n, val (dec n) = n.
Proof. intros n. unfold val. now rewrite num_dec_dec. Qed.
Lemma zeros : forall k, all_chars is_digit (repeat_char k "0") = true /\ val (repeat_char k "0") = 0%N /\ String.length (repeat_char k "0") = k.
Proof.
  induction k as [|k (A & B & C)]; [repeat split|]. split; [exact A|]. split; [|cbn [repeat_char String.length]; now rewrite C].
  change (repeat_char (S k) "0") with ("0" ++ repeat_char k "0"). rewrite val_app by auto. rewrite B. change (val "0") with 0%N. lia.
Qed.
Lemma len_app : forall a b : string, String.length (a ++ b) = (String.length a + String.length b)%nat.
Proof. induction a as [|c r IH]; intros b; [reflexivity|]. cbn [String.append String.length]. now rewrite IH. Qed.

Lemma digits_aux_len : forall fuel k n acc, (n < 10 ^ N.of_nat k)%N -> (1 <= k)%nat ->
  (String.length (digits_aux true 10 fuel n acc) <= k + String.length acc)%nat.
Proof.
  induction fuel as [|f IH]; intros k n acc N K; cbn [digits_aux]; [lia|]. destruct (N.ltb_spec n 10) as [L|L].
  - cbn [String.length]. lia.
  - destruct k as [|[|k]]; [lia| cbn in N; lia|]. assert (M : (n / 10 < 10 ^ N.of_nat (S k))%N).
    { apply N.div_lt_upper_bound; [lia|]. rewrite (Nat2N.inj_succ (S k)), N.pow_succ_r in N by lia. lia. }
    specialize (IH (S k) (n / 10)%N (String (xdigit_chr true (n mod 10)) acc) M ltac:(lia)). cbn [String.length] in IH. lia.
Qed.
Lemma dec_len : forall k n, (n < 10 ^ N.of_nat k)%N -> (1 <= k)%nat -> (String.length (dec n) <= k)%nat.
Proof. intros k n N K. unfold dec, print_base. pose proof (digits_aux_len (S (N.to_nat (N.log2 n))) k n "" N K) as L. cbn [String.length] in L. lia. Qed.

Lemma padded : forall k x, (x < 10 ^ N.of_nat k)%N -> (1 <= k)%nat ->
  let s := pad_left k "0" (dec x) in all_chars is_digit s = true /\ val s = x /\ String.length s = k.
Proof.
  intros k x X K s. pose proof (dec_len k x X K) as L. destruct (zeros (k - String.length (dec x))) as (A & B & C).
  subst s. unfold pad_left. rewrite all_chars_app, A, dec_digits. split; [reflexivity|]. split.
  - rewrite val_app by (auto using dec_digits). rewrite B, val_dec. lia.
  - rewrite len_app, C. lia.
Qed.

(** *** Cutting trailing zeros *)
Lemma sub_app : forall a b, substring 0 (String.length a) (a ++ b) = a.
Proof. induction a as [|c r IH]; intros b; [now destruct b|]. cbn [String.length String.append substring]. now rewrite IH. Qed.
Lemma sub_skip : forall a b n, substring (String.length a) n (a ++ b) = substring 0 n b.
Proof. induction a as [|c r IH]; intros b n; [reflexivity|]. cbn [String.length String.append substring]. apply IH. Qed.
Lemma sub_more : forall a b n, substring 0 (String.length a + n) (a ++ b) = a ++ substring 0 n b.
Proof. induction a as [|c r IH]; intros b n; [reflexivity|]. cbn [String.length String.append Nat.add substring]. now rewrite IH. Qed.

(** the first [n] characters are [p], a suffix of zeros, and [q] follows *)
Lemma scan_spec : forall n s j add, all_chars is_digit s = true -> (n <= String.length s)%nat -> (add <= j)%nat ->
  exists k, addtail_scan j add n s = k /\
    ((k = add /\ substring 0 n s = repeat_char n "0") \/
     exists i, k = (j + i)%nat /\ (1 <= i <= n)%nat /\ substring i (n - i) s = repeat_char (n - i) "0" /\ val (substring 0 i s) <> 0%N).
Proof.
  induction n as [|n IH]; intros s j add D L A.
  - exists add. split; [now destruct s|]. left. split; [reflexivity|]. now destruct s.
  - destruct s as [|c r]; [cbn in L; lia|]. cbn [all_chars] in D. apply andb_true_iff in D as [Dc D]. cbn [String.length] in L.
    cbn [addtail_scan]. destruct (in_range "1" "9" c) eqn:C.
    + destruct (IH r (S j) (S j) D ltac:(lia) ltac:(lia)) as (k & E & H). exists k. split; [exact E|]. right.
      assert (V : digit_val c <> 0%N).
      { unfold in_range, digit_val, code in *. cbn in C |- *. apply andb_true_iff in C as [C1 C2]. cbn in *. lia. }
      destruct H as [[-> H]|(i & -> & I & H & N)].
      * exists 1%nat. split; [lia|]. split; [lia|]. cbn [substring]. replace (S n - 1)%nat with n by lia. split; [exact H|].
        replace (String c (substring 0 0 r)) with (String c "") by (now destruct r). cbn [val num_dec]. unfold val. cbn [num_dec]. rewrite Dc. lia.
      * exists (S i). split; [lia|]. split; [lia|]. cbn [substring]. replace (S n - S i)%nat with (n - i)%nat by lia. split; [exact H|].
        change (String c (substring 0 i r)) with (String c "" ++ substring 0 i r).
        assert (DS : all_chars is_digit (substring 0 i r) = true).
        { clear - D. revert i. induction r as [|x r IH]; intros [|i]; cbn; auto. cbn [all_chars] in D. apply andb_true_iff in D as [a b]. rewrite a. cbn. auto. }
        rewrite val_app by (cbn [all_chars]; auto; now rewrite Dc). lia.
    + assert (Z : c = "0"%char).
      { unfold is_digit, in_range, code in *. cbn in Dc, C. apply andb_true_iff in Dc as [D1 D2]. apply andb_false_iff in C.
        rewrite <- (ascii_N_embedding c). replace (N_of_ascii c) with 48%N; [reflexivity|]. destruct C as [C|C]; lia. }
      subst c. destruct (IH r (S j) add D ltac:(lia) ltac:(lia)) as (k & E & H). exists k. split; [exact E|].
      destruct H as [[-> H]|(i & -> & I & H & N)].
      * left. split; [reflexivity|]. cbn [substring repeat_char]. now rewrite H.
      * right. exists (S i). split; [lia|]. split; [lia|]. cbn [substring]. replace (S n - S i)%nat with (n - i)%nat by lia. split; [exact H|].
        change (String "0" (substring 0 i r)) with ("0" ++ substring 0 i r).
        assert (DS : all_chars is_digit (substring 0 i r) = true).
        { clear - D. revert i. induction r as [|x r IH]; intros [|i]; cbn; auto. cbn [all_chars] in D. apply andb_true_iff in D as [a b]. rewrite a. cbn. auto. }
        rewrite val_app by auto. lia.
Qed.

Lemma sub_cut : forall s i n, (i <= n)%nat -> substring 0 i s ++ substring i (n - i) s = substring 0 n s.
Proof.
  induction s as [|c r IH]; intros [|i] [|n] H; cbn [substring String.append Nat.sub]; auto; try lia.
  f_equal. now apply IH; lia.
Qed.
Lemma sub_len : forall s i, (i <= String.length s)%nat -> String.length (substring 0 i s) = i.
Proof. induction s as [|c r IH]; intros [|i] H; cbn [substring String.length] in *; auto; try lia. rewrite IH; lia. Qed.
Lemma sub_digits : forall s i k, all_chars is_digit s = true -> all_chars is_digit (substring i k s) = true.
Proof.
  induction s as [|c r IH]; intros [|i] [|k] D; cbn [substring all_chars] in *; auto; apply andb_true_iff in D as [a b]; auto.
  rewrite a. cbn. auto.
Qed.
Lemma sub_all : forall s n, String.length s = n -> substring 0 n s = s.
Proof. intros s n <-. apply substring_0_all. lia. Qed.

(** the text after the conversion of the scaled number [n] *)
Definition cut_text (s : string) : string :=
  match index 0 "." s with
  | None => s ++ ".0"
  | Some dotpos =>
      let tail := substring (S dotpos) (String.length s) s in
      let tailsize := Nat.min (String.length s - (dotpos + 1)) 9 in
      let addtail := addtail_scan 0 0 tailsize tail in
      if (addtail =? 0)%nat then substring 0 dotpos s ++ ".0"
      else substring 0 (dotpos + addtail + 1) s
  end.

Lemma cut_spec : forall (s : bool) n, exists b,
  cut_text ((if s then "-" else "") ++ dec (n / 10 ^ 10) ++ "." ++ pad_left 10 "0" (dec (n mod 10 ^ 10)))
    = ((if s then "-" else "") ++ dec (n / 10 ^ 10) ++ "." ++ b) /\
  all_chars is_digit b = true /\ (1 <= String.length b <= 9)%nat /\
  (val (dec (n / 10 ^ 10) ++ b) * 10 ^ N.of_nat (10 - String.length b) <= n
    <= val (dec (n / 10 ^ 10) ++ b) * 10 ^ N.of_nat (10 - String.length b) + 9)%N.
Proof.
  intros s n. set (sg := if s then "-" else ""). set (A := dec (n / 10 ^ 10)).
  assert (X : (n mod 10 ^ 10 < 10 ^ N.of_nat 10)%N) by (apply N.mod_lt; discriminate).
  destruct (padded 10 (n mod 10 ^ 10)%N X ltac:(lia)) as (T1 & T2 & T3). set (T := pad_left 10 "0" (dec (n mod 10 ^ 10))) in *.
  assert (DA : all_chars is_digit A = true) by apply dec_digits.
  assert (VA : val A = (n / 10 ^ 10)%N) by apply val_dec.
  assert (ND : not_in (Ascii.eqb ".") (sg ++ A)).
  { unfold not_in. rewrite all_chars_app. apply andb_true_iff. split; [subst sg; now destruct s|].
    eapply all_chars_impl; [|exact DA]. intros c C. unfold is_digit, in_range in C. destruct (Ascii.eqb_spec "." c) as [<-|]; auto. }
  unfold cut_text. rewrite <- (app_assoc sg A). change ((sg ++ A) ++ "." ++ T) with ((sg ++ A) ++ String "." T).
  change "." with (String "." ""). rewrite index_char by exact ND. cbv zeta.
  set (P := sg ++ A) in *. rewrite len_app. cbn [String.length]. rewrite T3.
  replace (Nat.min (String.length P + 11 - (String.length P + 1)) 9) with 9%nat by lia.
  assert (E : substring (S (String.length P)) (String.length P + 11) (P ++ String "." T) = T).
  { replace (P ++ String "." T) with ((P ++ ".") ++ T) by (now rewrite app_assoc).
    replace (S (String.length P)) with (String.length (P ++ ".")) by (rewrite len_app; cbn; lia). rewrite sub_skip. apply substring_0_all. lia. }
  rewrite E. destruct (scan_spec 9 T 0 0 T1 ltac:(lia) ltac:(lia)) as (k & -> & H).
  assert (VT : n = (val A * 10 ^ 10 + val T)%N) by (rewrite VA, T2; pose proof (N.div_mod n (10 ^ 10)); lia).
  assert (L1 : all_chars is_digit (substring 9 1 T) = true) by now apply sub_digits.
  assert (V1 : (val (substring 9 1 T) <= 9)%N).
  { destruct (num_dec_at _ 0 L1) as [_ B]. assert (Q : (String.length (substring 9 1 T) <= 1)%nat).
    { clear. generalize T as t. intros t. do 9 (destruct t as [|? t]; [cbn; lia|]). destruct t as [|? [|? t]]; cbn; lia. }
    assert ((10 ^ N.of_nat (String.length (substring 9 1 T)) <= 10 ^ 1)%N) by (apply N.pow_le_mono_r; lia). lia. }
  assert (ST : T = substring 0 9 T ++ substring 9 1 T) by (rewrite <- (sub_all T 10 T3) at 1; symmetry; apply (sub_cut T 9 10); lia).
  assert (LL : String.length (substring 9 1 T) = 1%nat).
  { pose proof (f_equal String.length ST) as Q. rewrite len_app, T3, sub_len in Q by lia. lia. }
  destruct H as [[-> H]|(i & -> & I & H & N)].
  - exists "0". cbn [Nat.eqb]. rewrite sub_app. split; [subst P; now rewrite app_assoc|]. split; [reflexivity|]. split; [cbn; lia|].
    rewrite val_app by auto. change (val "0") with 0%N. cbn [String.length].
    assert (V : val T = val (substring 9 1 T)).
    { rewrite ST at 1. rewrite val_app by (auto using sub_digits). rewrite H. destruct (zeros 9) as (_ & Z & _). rewrite Z. lia. }
    rewrite V in VT. change (N.of_nat (10 - 1)) with 9%N. change (N.of_nat 1) with 1%N. change (10 ^ 10)%N with 10000000000%N in *.
    change (10 ^ 9)%N with 1000000000%N. change (10 ^ 1)%N with 10%N. lia.
  - exists (substring 0 i T). cbn [Nat.add]. destruct (Nat.eqb_spec i 0) as [|_]; [lia|].
    replace (String.length P + i + 1)%nat with (String.length (P ++ ".") + i)%nat by (rewrite len_app; cbn; lia).
    replace (P ++ String "." T) with ((P ++ ".") ++ T) by (now rewrite app_assoc). rewrite sub_more.
    split; [subst P; now rewrite !app_assoc|]. split; [now apply sub_digits|]. rewrite sub_len by lia. split; [lia|].
    assert (DB : all_chars is_digit (substring 0 i T) = true) by now apply sub_digits.
    rewrite val_app by auto. rewrite sub_len by lia.
    assert (V : val T = (val (substring 0 i T) * 10 ^ N.of_nat (10 - i) + val (substring 9 1 T))%N).
    { rewrite ST at 1. rewrite <- (sub_cut T i 9) by lia. rewrite H. destruct (zeros (9 - i)) as (Z1 & Z2 & Z3).
      rewrite val_app by (rewrite ?all_chars_app, ?DB, ?Z1; auto). rewrite val_app by auto. rewrite Z2, Z3, LL.
      replace (10 - i)%nat with (9 - i + 1)%nat by lia. rewrite Nat2N.inj_add, N.pow_add_r. lia. }
    assert (PW : (10 ^ 10 = 10 ^ N.of_nat i * 10 ^ N.of_nat (10 - i))%N).
    { rewrite <- N.pow_add_r. f_equal. lia. }
    rewrite VT, V, PW. set (a := (10 ^ N.of_nat i)%N). set (b := (10 ^ N.of_nat (10 - i))%N).
    replace (val A * (a * b))%N with (val A * a * b)%N by lia. rewrite N.mul_add_distr_r. lia.
Qed.

(** *** Rounding to ten digits *)
Lemma round_close : forall n d, (0 < d)%Z -> (2 * Z.abs (round_half_even n d * d - n) <= d)%Z.
Proof.
  intros n d D. unfold round_half_even. pose proof (Z.div_mod n d ltac:(lia)) as E. pose proof (Z.mod_pos_bound n d D) as B.
  destruct (Z.ltb_spec (2 * (n mod d)) d); [|destruct (Z.ltb_spec d (2 * (n mod d))); [|destruct (Z.even _)]]; nia.
Qed.
Lemma round_pos : forall n d, (0 < d)%Z -> (0 <= n)%Z -> (0 <= round_half_even n d)%Z.
Proof.
  intros n d D N. unfold round_half_even. pose proof (Z.div_pos n d N D).
  destruct (_ <? _)%Z; [|destruct (_ <? _)%Z; [|destruct (Z.even _)]]; lia.
Qed.

(** exponent part of the value as a fraction *)
Definition num_of (m : positive) (e : Z) : Z := match e with Zneg _ => Zpos m | _ => (Zpos m * 2 ^ e)%Z end.
Definition den_of (e : Z) : positive := match e with Zneg q => Pos.pow 2 q | _ => 1%positive end.
Lemma scaled_close : forall m e,
  (2 * Z.abs (Z.of_N (fixed10_scaled m e) * Zpos (den_of e) - num_of m e * 10 ^ 10) <= Zpos (den_of e))%Z.
Proof.
  intros m e. unfold fixed10_scaled, num_of, den_of. destruct e as [|q|q].
  - rewrite Z2N.id by lia. lia.
  - rewrite Z2N.id by lia. lia.
  - rewrite Z2N.id by (apply round_pos; lia). rewrite Pos2Z.inj_pow. apply round_close. lia.
Qed.
Lemma dval_frac : forall s m e, dval (S754_finite s m e) = Some (Qmake (if s then - num_of m e else num_of m e) (den_of e)).
Proof. intros s m e. unfold dval, num_of, den_of. destruct e, s; unfold inject_Z; rewrite <- ?Pos2Z.opp_pos, ?Z.mul_opp_l; reflexivity. Qed.

Lemma num_pos : forall m e, (0 <= num_of m e)%Z.
Proof. intros m e. unfold num_of. destruct e; lia. Qed.

(** *** Comparison with the smallest accepted number *)
Lemma digits2_bound : forall m, (2 ^ (Zpos (digits2_pos m) - 1) <= Zpos m < 2 ^ Zpos (digits2_pos m))%Z.
Proof.
  induction m as [m IH|m IH|]; cbn [digits2_pos]; [| |cbn; lia]; rewrite Pos2Z.inj_succ;
    replace (Z.succ (Z.pos (digits2_pos m)) - 1)%Z with (Z.succ (Z.pos (digits2_pos m) - 1))%Z by lia; rewrite !Z.pow_succ_r by lia; lia.
Qed.
Lemma accepted_size : forall s m e, is_double (S754_finite s m e) -> too_small (S754_finite s m e) = false -> (10 <= fixed10_scaled m e)%N.
Proof.
  intros s m e V T. unfold too_small in T. apply andb_false_iff in T as [T|T]; [|destruct s; discriminate T].
  set (k := min_fac_off) in T. vm_compute in k. subst k. unfold is_double, valid_binary, bounded in V. apply andb_true_iff in V as [V _].
  unfold canonical_mantissa, fexp, emin in V. apply Zeq_bool_eq in V. pose proof (digits2_bound m) as B.
  unfold dltb, dabs, SFabs, SFcompare in T. 
  assert (K : (num_of m e * 2 ^ 82 >= 4835703278458517 * Zpos (den_of e))%Z).
  { unfold num_of, den_of. destruct (Z.compare_spec e (-82)) as [->|L|G].
    - cbn [Z.compare] in T. destruct (Pos.compare_cont Eq m _) eqn:C; try discriminate T.
      + apply Pos.compare_eq in C. subst m. cbn. lia.
      + apply Pos.compare_gt_iff in C. cbn. lia.
    - discriminate T.
    - assert (D : Zpos (digits2_pos m) = 53%Z) by lia. rewrite D in B. destruct e as [|q|q].
      + cbn. lia.
      + pose proof (Z.pow_pos_nonneg 2 (Zpos q)). assert (1 <= 2 ^ Z.pos q)%Z by lia. assert (2 ^ 52 <= Z.pos m * 2 ^ Z.pos q)%Z by (change (53 - 1)%Z with 52%Z in B; nia).
        clear - H1. change (2 ^ 52)%Z with 4503599627370496%Z in *. change (2 ^ 82)%Z with 4835703278458516698824704%Z. lia.
      + rewrite Pos2Z.inj_pow. assert (P : (2 ^ 82 = 2 ^ Z.pos q * 2 ^ (82 - Z.pos q))%Z) by (rewrite <- Z.pow_add_r by lia; f_equal; lia).
        rewrite P. assert (2 ^ 1 <= 2 ^ (82 - Z.pos q))%Z by (apply Z.pow_le_mono_r; lia). pose proof (Z.pow_pos_nonneg 2 (Zpos q)). nia. }
  pose proof (scaled_close m e) as S. pose proof (Pos2Z.is_pos (den_of e)) as D.
  set (F := fixed10_scaled m e) in *. set (d := Zpos (den_of e)) in *. set (n := num_of m e) in *.
  destruct (N.le_gt_cases 10 F) as [|L]; auto. exfalso.
  assert (n * 10 ^ 10 * 2 ^ 82 >= 4835703278458517 * 10 ^ 10 * d)%Z by lia.
  assert (L9 : (Z.of_N F <= 9)%Z) by lia.
  assert (Z.of_N F * d <= 9 * d)%Z by nia.
  assert (2 * (n * 10 ^ 10) <= 19 * d)%Z by lia.
  assert (2 * (n * 10 ^ 10) * 2 ^ 82 <= 19 * d * 2 ^ 82)%Z by lia.
  assert (2 * (4835703278458517 * 10 ^ 10 * d) <= 19 * d * 2 ^ 82)%Z as K9 by lia.
  clear - K9 D. change (10 ^ 10)%Z with 10000000000%Z in K9. change (2 ^ 82)%Z with 4835703278458516698824704%Z in K9. lia.
Qed.

Theorem printed_number : forall d q, is_double d -> dval d = Some q ->
  exists neg a b n, decimal (prt_double d 9) neg a b n /\ (1 <= String.length b <= 9)%nat /\
    (Qabs (decimal_value neg b n - q) < 105 # 10 ^ 11)%Q /\
    (too_small d = false -> (~ q == 0)%Q -> n <> 0%N).
Proof.
  intros d q V Q.
  assert (exists s F, prt_double d 9 = cut_text ((if s : bool then "-" else "") ++ dec (F / 10 ^ 10) ++ "." ++ pad_left 10 "0" (dec (F mod 10 ^ 10))) /\
    (exists nu de, q = Qmake (if s then - nu else nu) de /\ (0 <= nu)%Z /\ (2 * Z.abs (Z.of_N F * Zpos de - nu * 10 ^ 10) <= Zpos de)%Z) /\
    (too_small d = false -> (~ q == 0)%Q -> (10 <= F)%N)) as (s & F & E & (nu & de & -> & NN & C) & A).
  { destruct d as [s|s| |s m e]; try discriminate Q.
    - exists s, 0%N. split; [reflexivity|]. injection Q as <-. split.
      + exists 0%Z, 1%positive. split; [now destruct s|]. cbn. lia.
      + intros _ H. exfalso. apply H. reflexivity.
    - exists s, (fixed10_scaled m e). split; [reflexivity|]. rewrite dval_frac in Q. assert (Q' := Q). injection Q' as <-. split.
      + exists (num_of m e), (den_of e). split; [reflexivity|]. split; [apply num_pos|]. apply scaled_close.
      + intros T _. eapply accepted_size; eauto. }
  destruct (cut_spec s F) as (b & T & D & L & B). rewrite E, T.
  set (A0 := dec (F / 10 ^ 10)) in *. assert (DA : all_chars is_digit A0 = true) by apply dec_digits.
  assert (DAB : all_chars is_digit (A0 ++ b) = true) by (rewrite all_chars_app, DA, D; reflexivity).
  exists s, A0, b, (val (A0 ++ b)). split; [|split; [exact L|split]].
  - split; [reflexivity|]. split; [apply dec_nonempty|]. repeat split; auto. destruct (num_dec_at (A0 ++ b) 0 DAB) as [X _]. rewrite X. f_equal; lia.
  - clear - B C L NN. set (v := val (A0 ++ b)) in *. clearbody v. set (k := String.length b) in *.
    assert (PK : (10 ^ N.of_nat k * 10 ^ N.of_nat (10 - k) = 10 ^ 10)%N) by (rewrite <- N.pow_add_r; f_equal; lia).
    unfold decimal_value. fold k.
    assert (EK : Z.pos (10 ^ Pos.of_nat k) = Z.of_N (10 ^ N.of_nat k)).
    { rewrite Pos2Z.inj_pow, N2Z.inj_pow. f_equal. destruct k; [lia|]. rewrite <- Pos.of_nat_succ by lia. rewrite nat_N_Z. rewrite Zpos_P_of_succ_nat. lia. }
    set (p := (10 ^ Pos.of_nat k)%positive) in *. set (P := (10 ^ N.of_nat k)%N) in *. set (R := (10 ^ N.of_nat (10 - k))%N) in *.
    assert (M : (Z.abs (Z.of_N v * Z.pos de - nu * Z.pos p) * 10 ^ 11 < 105 * (Z.pos p * Z.pos de))%Z).
    { rewrite EK. assert (PK' : (Z.of_N P * Z.of_N R = 10 ^ 10)%Z) by (rewrite <- N2Z.inj_mul, PK; reflexivity).
      assert (RP : (0 < Z.of_N R)%Z) by (destruct (Z.of_N R) eqn:?; lia).
      assert (PP : (0 < Z.of_N P)%Z) by nia.
      assert (B1 : (Z.of_N v * Z.of_N R <= Z.of_N F <= Z.of_N v * Z.of_N R + 9)%Z) by lia.
      assert (D0 : (0 < Z.pos de)%Z) by lia. clear - B1 C D0 RP PK' PP.
      generalize dependent (Z.pos de). generalize dependent (Z.of_N R). generalize dependent (Z.of_N P).
      generalize dependent (Z.of_N F). generalize (Z.of_N v). intros vv f pp PP rr PK' RP B1 dd C D0.
      assert (K1 : (Z.abs (vv * rr * dd - nu * 10 ^ 10) * 2 <= 19 * dd)%Z) by nia.
      assert (K2 : (vv * rr * dd - nu * 10 ^ 10 = (vv * dd - nu * pp) * rr)%Z) by (rewrite <- PK'; ring).
      rewrite K2, Z.abs_mul, (Z.abs_eq rr) in K1 by lia.
      assert (K3 : (Z.abs (vv * dd - nu * pp) * rr * pp * 2 <= 19 * dd * pp)%Z) by nia.
      replace (Z.abs (vv * dd - nu * pp) * rr * pp * 2)%Z with (Z.abs (vv * dd - nu * pp) * (pp * rr) * 2)%Z in K3 by ring.
      rewrite PK' in K3. change (10 ^ 11)%Z with (10 ^ 10 * 10)%Z. nia. }
    unfold Qlt, Qabs, Qminus, Qplus, Qopp. cbn [Qnum Qden]. rewrite Pos2Z.inj_mul. 
    replace (Z.abs ((if s then (- Z.of_N v)%Z else Z.of_N v) * Z.pos de + - (if s then (- nu)%Z else nu) * Z.pos p)%Z)
      with (Z.abs (Z.of_N v * Z.pos de - nu * Z.pos p)) by (destruct s; lia).
    change (Z.pos (10 ^ 11)) with (10 ^ 11)%Z. exact M.
  - intros TS NZ. specialize (A TS NZ). intros Z0. rewrite Z0 in B. lia.
Qed.
