(** Reading a printed signal line. *)

From Coq Require Import Permutation ZArith NArith List String Ascii Bool Lia ZifyBool.
From Coq Require Import Floats.SpecFloat.
From Verif Require Import Base Dbl CSyntax Types Formatter MainGen LineParser Scanner LexLemmas ScanSpec ScanLemmas ScanLines ScanPass1 ScanThms ConvSpec SigTypes ConvThms SigSpec.
Import ListNotations.
Open Scope string_scope.

(** ** Integers as doubles *)

Lemma iter_digits : forall d p, Z.pos (digits2_pos (shift_pos d p)) = (Z.pos (digits2_pos p) + Z.pos d)%Z /\ (Z.pos (shift_pos d p) = Z.pos p * 2 ^ Z.pos d)%Z.
Proof.
  intros d p. unfold shift_pos. revert p. induction d as [|d IH] using Pos.peano_ind; intros p.
  - cbn [Pos.iter digits2_pos]. lia.
  - rewrite Pos.iter_succ. cbn [digits2_pos]. destruct (IH p) as [A B]. split; [lia|].
    rewrite Pos2Z.inj_succ, Z.pow_succ_r by lia. rewrite Pos2Z.inj_xO, B. lia.
Qed.

Lemma int_round : forall s p, (Z.pos (digits2_pos p) <= 53)%Z -> exists m e,
  binary_round dprec demax s p 0 = S754_finite s m e /\ (-52 <= e <= 0)%Z /\ (Z.pos m = Z.pos p * 2 ^ (- e))%Z.
Proof.
  intros s p D. unfold binary_round. set (k := Z.pos (digits2_pos p)) in *.
  assert (F : fexp dprec demax (k + 0) = (k - 53)%Z).
  { unfold fexp, emin, dprec, demax. lia. }
  rewrite F. assert (A : exists m, shl_align p 0 (k - 53) = (m, (k - 53)%Z) /\ Z.pos (digits2_pos m) = 53%Z /\ (Z.pos m = Z.pos p * 2 ^ (53 - k))%Z).
  { unfold shl_align. destruct (k - 53 - 0)%Z eqn:E; [| lia |].
    - exists p. split; [f_equal; lia|]. split; [lia|]. replace (53 - k)%Z with 0%Z by lia. lia.
    - exists (shift_pos p0 p). split; [reflexivity|]. destruct (iter_digits p0 p) as [X Y]. fold k in X. split; [lia|].
      rewrite Y. f_equal. f_equal. lia. }
  destruct A as (m & A & DM & V). rewrite A. unfold binary_round_aux, shr_fexp. cbn [Zdigits2]. rewrite DM.
  assert (G : fexp dprec demax (53 + (k - 53)) = (k - 53)%Z) by (unfold fexp, emin, dprec, demax; lia).
  rewrite G, Z.sub_diag. cbn [shr shr_record_of_loc shr_m loc_of_shr_record round_nearest_even Zdigits2]. rewrite DM, G, Z.sub_diag.
  cbn [shr shr_record_of_loc shr_m]. exists m, (k - 53)%Z.
  replace (k - 53 <=? demax - dprec)%Z with true by (unfold demax, dprec; lia).
  split; [reflexivity|]. split; [lia|]. rewrite V. do 2 f_equal. lia.
Qed.

Lemma digits_le : forall p k, (Z.pos p < 2 ^ k)%Z -> (0 <= k)%Z -> (Z.pos (digits2_pos p) <= k)%Z.
Proof.
  induction p as [p IH|p IH|]; intros k H K; cbn [digits2_pos].
  - destruct (Z.eq_dec k 0) as [->|N]; [lia|]. assert (B : (Z.pos p < 2 ^ (k - 1))%Z).
    { replace k with (Z.succ (k - 1)) in H by lia. rewrite Z.pow_succ_r in H by lia. lia. }
    specialize (IH _ B). lia.
  - destruct (Z.eq_dec k 0) as [->|N]; [lia|]. assert (B : (Z.pos p < 2 ^ (k - 1))%Z).
    { replace k with (Z.succ (k - 1)) in H by lia. rewrite Z.pow_succ_r in H by lia. lia. }
    specialize (IH _ B). lia.
  - destruct (Z.eq_dec k 0) as [->|N]; lia.
Qed.

(** the double of an integer text *)
Lemma int_double : forall z, (- 2 ^ 53 < z < 2 ^ 53)%Z ->
  int_val (dbl_of_Z z) z /\ too_small (dbl_of_Z z) = false.
Proof.
  intros z H. destruct z as [|p|p].
  - split; reflexivity.
  - destruct (int_round false p) as (m & e & R & E & V); [apply digits_le; lia|].
    unfold dbl_of_Z, binary_normalize. rewrite R. split.
    + cbn [int_val]. destruct (0 <=? e)%Z eqn:Q; [|lia]. assert (e = 0%Z) by lia. subst e. rewrite Z.mul_1_r in *. lia.
    + unfold too_small. cbn [dabs SFabs]. change min_fac_off with (S754_finite false 4835703278458517 (-82)). unfold dltb. cbn [SFcompare].
      replace (e ?= -82)%Z with Gt; [reflexivity|]. symmetry. apply Z.compare_gt_iff. lia.
  - destruct (int_round true p) as (m & e & R & E & V); [apply digits_le; lia|].
    unfold dbl_of_Z, binary_normalize. rewrite R. split.
    + cbn [int_val]. destruct (0 <=? e)%Z eqn:Q; [|lia]. assert (e = 0%Z) by lia. subst e. rewrite Z.mul_1_r in *. lia.
    + unfold too_small. unfold dabs. cbn [SFabs]. change min_fac_off with (S754_finite false 4835703278458517 (-82)). unfold dltb. cbn [SFcompare].
      replace (e ?= -82)%Z with Gt; [reflexivity|]. symmetry. apply Z.compare_gt_iff. lia.
Qed.

(** text of an integer *)
Lemma mant_digits : forall s acc n k r, num_dec acc s = Some n -> not_digit_head r -> mant_dec acc k (s ++ r) = (n, (k + String.length s)%nat, r).
Proof.
  induction s as [|c s IH]; intros acc n k r H D.
  - cbn in H. injection H as <-. cbn [append String.length]. rewrite Nat.add_0_r. destruct r as [|c r]; [reflexivity|]. cbn in *. now rewrite D.
  - cbn [num_dec] in H. rewrite app_cons. cbn [mant_dec String.length]. destruct (is_digit c) eqn:E; [|discriminate].
    rewrite (IH _ _ _ _ H D). f_equal. f_equal. lia.
Qed.
Lemma digit_not_word : forall c, is_digit c = true -> prefix_ci "inf" (String c "") = false /\ Ascii.eqb "i" (to_lower c) = false /\ Ascii.eqb "n" (to_lower c) = false.
Proof.
  intros c H. repeat split; revert c H.
  - apply (ascii_excl is_digit (fun c => prefix_ci "inf" (String c ""))). vm_compute. reflexivity.
  - apply (ascii_excl is_digit (fun c => Ascii.eqb "i" (to_lower c))). vm_compute. reflexivity.
  - apply (ascii_excl is_digit (fun c => Ascii.eqb "n" (to_lower c))). vm_compute. reflexivity.
Qed.
Lemma hex_mark : forall c (A : Type) (x y : A), is_digit c = true \/ c = "."%char -> (if Ascii.eqb c "x" || Ascii.eqb c "X" then x else y) = y.
Proof.
  intros c A x y [H|E0]; [|now subst c]. assert (E : Ascii.eqb c "x" || Ascii.eqb c "X" = false); [|now rewrite E].
  revert c H. apply (ascii_excl is_digit (fun c => Ascii.eqb c "x" || Ascii.eqb c "X")). vm_compute. reflexivity.
Qed.

(** the digits after an optional sign *)
Definition body_value (neg : bool) (r : string) : dbl :=
  match mantissa mant_dec r with
  | Some (n, k, rest) => dbl_of_decimal neg n (exponent "e" "E" rest - k)
  | None => S754_zero false
  end.
Definition plain_body (s : string) : Prop :=
  match s with String c r => is_digit c = true /\ (match r with String d _ => is_digit d = true \/ d = "."%char | EmptyString => True end) | EmptyString => False end.
Lemma atof_body : forall (neg : bool) s, plain_body s -> atof ((if neg then "-" else "") ++ s) = body_value neg s.
Proof.
  intros neg s P. destruct s as [|c r]; [contradiction|]. destruct P as [C R].
  destruct (digit_no_sign c C) as (S1 & S2 & S3). destruct (digit_not_word c C) as (_ & W1 & W2).
  assert (SG : sign_of (drop_while is_space ((if neg then "-" else "") ++ String c r)) = (neg, String c r)).
  { destruct neg; [reflexivity|]. change ("" ++ String c r) with (String c r). cbn [drop_while]. rewrite S3. unfold sign_of. now rewrite S1, S2. }
  unfold atof. rewrite SG. cbv beta iota zeta. cbn [prefix_ci]. rewrite W1, W2. cbn [andb]. fold (body_value neg (String c r)).
  destruct r as [|d r]; [destruct c as [[|] [|] [|] [|] [|] [|] [|] [|]]; reflexivity|].
  destruct c as [[|] [|] [|] [|] [|] [|] [|] [|]]; try reflexivity. now rewrite hex_mark.
Qed.

Lemma body_dec : forall neg n, body_value neg (dec n) = dbl_of_decimal neg n 0.
Proof.
  intros neg n. unfold body_value, mantissa. rewrite <- (app_nil_r (dec n)). rewrite (mant_digits (dec n) 0 n 0 "") by (auto using num_dec_dec; exact Logic.I).
  cbn [exponent]. pose proof (dec_nonempty n). destruct (dec n) eqn:E; [congruence|]. reflexivity.
Qed.
Lemma dec_body : forall n, plain_body (dec n).
Proof.
  intros n. destruct (dec_cons n) as (c & r & -> & C & R). split; auto. destruct r as [|d r]; auto. left. cbn in R. apply andb_true_iff in R. tauto.
Qed.
Lemma atof_int : forall z, atof (decZ z) = dbl_of_Z z.
Proof.
  intros z. unfold decZ. destruct (z <? 0)%Z eqn:Q.
  - rewrite (atof_body true) by apply dec_body. rewrite body_dec. unfold dbl_of_decimal. destruct z; try lia. cbn [Z.opp Z.to_N]. reflexivity.
  - change (dec (Z.to_N z)) with ("" ++ dec (Z.to_N z)). rewrite (atof_body false (dec (Z.to_N z)) (dec_body _)). rewrite body_dec. unfold dbl_of_decimal. destruct z; try lia; reflexivity.
Qed.
(** text with a fraction *)
Lemma atof_decimal : forall t neg a b n, decimal t neg a b n -> b <> "" -> atof t = dbl_of_decimal neg n (- Z.of_nat (String.length b)).
Proof.
  intros t neg a b n (-> & NE & DA & DB & V) B. rewrite atof_body.
  - unfold body_value, mantissa.
    assert (X : exists na, num_dec 0 a = Some na /\ num_dec na b = Some n).
    { clear - DA V. revert V. generalize 0%N. induction a as [|c a IH]; intros acc V; [exists acc; auto|]. cbn [all_chars] in DA. apply andb_true_iff in DA as [C DA].
      rewrite app_cons in V. cbn [num_dec] in V |- *. rewrite C in *. auto. }
    destruct X as (na & V1 & V2). rewrite (mant_digits a 0 na 0 ("." ++ b) V1 eq_refl). cbn [append].
    pose proof (mant_digits b na n 0 "" V2 Logic.I) as M. rewrite app_nil_r in M. rewrite M. cbn [exponent].
    destruct b; [congruence|]. destruct a; [congruence|]. cbn [String.length Nat.add Nat.eqb]. f_equal.
  - destruct a as [|c a]; [congruence|]. cbn [all_chars] in DA. apply andb_true_iff in DA as [C DA]. rewrite app_cons. split; auto.
    destruct a as [|d a]; [now right|]. cbn [all_chars] in DA. apply andb_true_iff in DA as [D DA]. now left.
Qed.

(** ** The two halves of the line *)

Definition no_colon (s : string) : bool := all_chars (fun c => negb (Ascii.eqb c ":")) s.
Definition ends_visible (s : string) : bool := match last_char s with Some c => negb (is_space c) | None => false end.

Lemma visible_head : forall a r, no_colon a = true -> ends_visible a = true ->
  match drop_while is_space (a ++ r) with String k _ => Ascii.eqb k ":" = false | EmptyString => False end.
Proof.
  induction a as [|c a IH]; intros r N V; [discriminate|]. unfold no_colon in N. cbn [all_chars] in N. apply andb_true_iff in N as [C N].
  rewrite app_cons. cbn [drop_while]. destruct (is_space c) eqn:S.
  - destruct a as [|d a]; [unfold ends_visible in V; cbn in V; rewrite S in V; discriminate|]. apply IH; auto.
  - now apply negb_true_iff in C.
Qed.
Lemma colon_none : forall c a r, no_colon (String c a) = true -> ends_visible (String c a) = true -> match_colon (String c a ++ r) = None.
Proof.
  intros c a r N V. pose proof (visible_head (String c a) r N V) as H. rewrite app_cons in *. unfold match_colon.
  destruct (is_space c); auto. destruct (drop_while is_space (String c (a ++ r))) as [|k t]; [contradiction|]. now rewrite H.
Qed.
Lemma colon_first : forall a f acc seen t, no_colon a = true -> ends_visible a = true -> (match t with String c _ => is_space c = false | EmptyString => True end) ->
  split_colon_from (String.length a + S f) acc seen (a ++ " : " ++ t) = (rev_string acc ++ a) :: split_colon_from f "" true t.
Proof.
  induction a as [|c a IH]; intros f acc seen t N V T; [discriminate|]. cbn [String.length Nat.add]. rewrite app_cons. cbn [split_colon_from].
  rewrite <- app_cons, colon_none by auto. destruct a as [|d a].
  - cbn [String.length Nat.add append split_colon_from match_colon]. change (is_space " ") with true. cbv iota. change (drop_while is_space (String " " (String ":" (String " " t)))) with (String ":" (String " " t)).
    cbv iota. change (Ascii.eqb ":" ":") with true. cbv iota. change (is_space " ") with true. cbv iota.
    replace (drop_while is_space (String " " t)) with t by (cbn [drop_while]; change (is_space " ") with true; cbv iota; destruct t as [|k t]; cbn [drop_while]; [reflexivity|now rewrite T]).
    now rewrite rev_cons.
  - rewrite IH; auto.
    + rewrite rev_cons, app_assoc. reflexivity.
    + unfold no_colon in *. cbn [all_chars] in *. apply andb_true_iff in N. tauto.
Qed.
Lemma colon_rest : forall t f acc seen, no_colon t = true -> (String.length t < f)%nat -> rev_string acc ++ t <> "" ->
  split_colon_from f acc seen t = [rev_string acc ++ t].
Proof.
  induction t as [|c t IH]; intros f acc seen N L E; (destruct f as [|f]; [cbn in L; lia|]); cbn [split_colon_from].
  - rewrite app_nil_r in *. destruct acc; [exfalso; apply E; reflexivity|]. cbn [String.eqb]. now rewrite andb_false_r.
  - assert (M : match_colon (String c t) = None).
    { unfold match_colon. destruct (is_space c); auto. pose proof (drop_all _ is_space _ N) as D. destruct (drop_while is_space (String c t)) as [|k u]; auto.
      cbn [all_chars] in D. apply andb_true_iff in D as [D _]. apply negb_true_iff in D. now rewrite D. }
    rewrite M. rewrite IH; [now rewrite rev_cons, app_assoc| | |].
    + unfold no_colon in *. cbn [all_chars] in N. apply andb_true_iff in N. tauto.
    + cbn [String.length] in L. lia.
    + rewrite rev_cons, app_assoc. destruct (rev_string acc); discriminate.
Qed.
Lemma split_line : forall a t, no_colon a = true -> ends_visible a = true -> no_colon t = true -> t <> "" ->
  (match t with String c _ => is_space c = false | EmptyString => True end) -> split_colon (a ++ " : " ++ t) = [a; t].
Proof.
  intros a t A V T E H. unfold split_colon.
  replace (S (String.length (a ++ " : " ++ t))) with (String.length a + S (String.length t + 3))%nat by (rewrite !app_len; cbn [String.length]; lia).
  rewrite colon_first by auto. rewrite colon_rest; auto. lia.
Qed.

(** ** Words of the first half *)

Definition word_char (c : ascii) : bool := negb (is_space c || Ascii.eqb c DQ).
Lemma span_word : forall w r, all_chars word_char w = true -> (match r with String c _ => word_char c = false | EmptyString => True end) -> span word_char (w ++ r) = (w, r).
Proof.
  induction w as [|c w IH]; intros r W R.
  - destruct r as [|c r]; [reflexivity|]. cbn [append span]. now rewrite R.
  - cbn [all_chars] in W. apply andb_true_iff in W as [C W]. rewrite app_cons. cbn [span]. now rewrite C, IH.
Qed.
Lemma items_word : forall w r f, w <> "" -> all_chars word_char w = true -> (match r with String c _ => word_char c = false | EmptyString => True end) ->
  val_items_from (S f) (w ++ r) = w :: val_items_from f r.
Proof.
  intros w r f E W R. destruct w as [|c w]; [congruence|]. rewrite app_cons. cbn [val_items_from].
  assert (C : word_char c = true) by (cbn [all_chars] in W; apply andb_true_iff in W; tauto).
  unfold word_char in C. apply negb_true_iff, orb_false_iff in C as [C1 C2]. rewrite C1, C2. fold word_char.
  rewrite <- app_cons. rewrite (span_word (String c w) r W R). reflexivity.
Qed.
Lemma items_blank : forall f r, val_items_from (S f) (String " " r) = val_items_from f r.
Proof. reflexivity. Qed.
Lemma node_word : forall c, node_char c = true -> word_char c = true.
Proof. apply ascii_impl. vm_compute. reflexivity. Qed.
Lemma name_word : forall s, node_name s -> s <> "" /\ all_chars word_char s = true.
Proof. intros s [E A]. split; auto. eapply all_chars_impl; [apply node_word|exact A]. Qed.

Definition mux_words (mx : option string) : list string := match mx with Some w => [w] | None => [] end.
Definition mux_text (mx : option string) : string := match mx with Some w => " " ++ w | None => "" end.
Lemma items_head : forall name mx, node_name name -> (forall w, mx = Some w -> node_name w) ->
  val_items (" SG_ " ++ name ++ mux_text mx) = "SG_" :: name :: mux_words mx.
Proof.
  intros name mx N M. unfold val_items. destruct (name_word _ N) as [E W].
  set (f := String.length (" SG_ " ++ name ++ mux_text mx)).
  assert (L : (8 <= f)%nat \/ mx = None /\ (6 <= f)%nat).
  { unfold f. rewrite !app_len. cbn [String.length]. destruct name; [congruence|]. cbn [String.length]. destruct mx as [w|]; [|right; split; auto; lia].
    destruct (M w eq_refl) as [Ew _]. destruct w; [congruence|]. cbn [mux_text append String.length]. left. lia. }
  change (" SG_ " ++ ?x) with (String " " ("SG_" ++ String " " x)).
  destruct f as [|[|[|[|[|f]]]]]; try lia. rewrite items_blank.
  rewrite items_word by (try discriminate; reflexivity). rewrite items_blank. f_equal.
  rewrite (items_word name (mux_text mx)); auto.
  - f_equal. destruct mx as [w|]; cbn [mux_text mux_words].
    + destruct (name_word _ (M w eq_refl)) as [Ew Ww]. change (" " ++ w) with (String " " w). rewrite items_blank.
      rewrite <- (app_nil_r w) at 1. destruct f; [lia|]. rewrite items_word; auto.
    + reflexivity.
  - destruct mx; reflexivity.
Qed.

(** ** The second half *)

Lemma rtrim_step : forall c r, rtrim (String c r) = match rtrim r with EmptyString => if is_space c then "" else String c "" | r' => String c r' end.
Proof. reflexivity. Qed.
Lemma rtrim_vis : forall s, ends_visible s = true -> rtrim s = s /\ rtrim (s ++ " ") = s.
Proof.
  induction s as [|c s IH]; intros V; [discriminate|]. destruct s as [|d s].
  - unfold ends_visible in V. cbn [last_char] in V. apply negb_true_iff in V. rewrite app_cons. cbn [append rtrim]. change (is_space " ") with true. cbv iota. now rewrite V.
  - destruct (IH V) as [A B]. rewrite app_cons, !(rtrim_step c), A, B. split; reflexivity.
Qed.
Lemma vis_app : forall a b, b <> "" -> ends_visible (a ++ b) = ends_visible b.
Proof. intros a b E. unfold ends_visible. now rewrite last_char_app. Qed.
Lemma all_last : forall p s, s <> "" -> all_chars p s = true -> exists c, last_char s = Some c /\ p c = true.
Proof.
  induction s as [|c s IH]; intros E A; [congruence|]. cbn [all_chars] in A. apply andb_true_iff in A as [C A]. destruct s as [|d s]; [exists c; auto|].
  destruct (IH ltac:(discriminate) A) as (x & L & P). exists x. split; auto.
Qed.

Lemma digit_recv : forall c, is_digit c = true -> recv_delim c = false.
Proof. apply ascii_excl. vm_compute. reflexivity. Qed.
Lemma node_recv : forall c, node_char c = true -> recv_delim c = false.
Proof. apply ascii_excl. vm_compute. reflexivity. Qed.
Lemma num_recv : forall c, num_char c = true -> recv_delim c = false.
Proof. apply ascii_excl. vm_compute. reflexivity. Qed.
Lemma digit_num : forall c, is_digit c = true -> num_char c = true.
Proof. apply ascii_impl. vm_compute. reflexivity. Qed.
Lemma node_vis : forall c, node_char c = true -> is_space c = false.
Proof. apply ascii_excl. vm_compute. reflexivity. Qed.

Lemma recv_commas : forall l b, l <> [] -> (forall x, In x l -> node_name x) -> split_runs_from recv_delim "" b (commas l) = l.
Proof.
  induction l as [|x l IH]; intros b E H; [congruence|].
  assert (X : node_name x) by (apply H; left; reflexivity). destruct X as [X1 X2].
  assert (NX : not_in recv_delim x) by (eapply not_in_of; [exact X2|apply node_recv]).
  destruct l as [|y l].
  - cbn [commas]. now rewrite runs_end by auto.
  - change (commas (x :: y :: l)) with (x ++ String "," (commas (y :: l))).
    rewrite runs_tok by auto. change (rev_string "" ++ x) with x. f_equal. apply IH; [discriminate|].
    intros z Z. apply H. now right.
Qed.
Lemma commas_vis : forall l, l <> [] -> (forall x, In x l -> node_name x) -> commas l <> "" /\ ends_visible (commas l) = true /\
  match commas l with String c _ => is_space c = false | EmptyString => True end.
Proof.
  induction l as [|x l IH]; intros E H; [congruence|].
  destruct (H x (or_introl eq_refl)) as [X1 X2]. destruct l as [|y l].
  - cbn [commas]. split; auto. split.
    + destruct (all_last _ _ X1 X2) as (c & L & C). unfold ends_visible. now rewrite L, (node_vis _ C).
    + destruct x as [|c x]; auto. cbn [all_chars] in X2. apply andb_true_iff in X2 as [C _]. now apply node_vis.
  - destruct (IH ltac:(discriminate) (fun z Z => H z (or_intror Z))) as (A & B & _).
    change (commas (x :: y :: l)) with (x ++ "," ++ commas (y :: l)). split; [destruct x; discriminate|]. split.
    + rewrite vis_app by (destruct (commas (y :: l)); discriminate). now rewrite vis_app.
    + destruct x as [|c x]; [congruence|]. rewrite app_cons. cbn [all_chars] in X2. apply andb_true_iff in X2 as [C _]. now apply node_vis.
Qed.

Definition value_part (start len : N) (mark f o lo hi : string) : string :=
  dec start ++ "|" ++ dec len ++ "@" ++ mark ++ " (" ++ f ++ "," ++ o ++ ") [" ++ lo ++ "|" ++ hi ++ "]".
Lemma split_values : forall start len mark f o lo hi, bound_text mark -> bound_text f -> bound_text o -> bound_text lo -> bound_text hi ->
  split_runs recv_delim (value_part start len mark f o lo hi) = [dec start; dec len; mark; f; o; lo; hi].
Proof.
  assert (D : forall n, not_in recv_delim (dec n)) by (intros; eapply not_in_of; [apply dec_digits|apply digit_recv]).
  assert (B : forall s, bound_text s -> not_in recv_delim s /\ s <> "") by (intros s [A C]; split; auto; eapply not_in_of; [exact C|apply num_recv]).
  intros start len mark f o lo hi M F O L H. destruct (B _ M) as [M1 M2], (B _ F) as [F1 F2], (B _ O) as [O1 O2], (B _ L) as [L1 L2], (B _ H) as [H1 H2].
  pose proof (dec_nonempty len) as DL. unfold split_runs, value_part.
  change (dec start ++ "|" ++ ?x) with (dec start ++ String "|" x). rewrite runs_tok; auto.
  change (dec len ++ "@" ++ ?x) with (dec len ++ String "@" x). rewrite runs_tok; auto.
  change (mark ++ " (" ++ ?x) with (mark ++ String " " ("(" ++ x)). rewrite runs_tok; auto. rewrite runs_skip by reflexivity.
  change (f ++ "," ++ ?x) with (f ++ String "," x). rewrite runs_tok; auto.
  change (o ++ ") [" ++ ?x) with (o ++ String ")" (" [" ++ x)). rewrite runs_tok; auto. rewrite runs_skip by reflexivity.
  change (lo ++ "|" ++ ?x) with (lo ++ String "|" x). rewrite runs_tok; auto.
  change (hi ++ "]") with (hi ++ String "]" ""). rewrite runs_tok; auto.
Qed.

(** ** Numbers *)

Lemma digits_num : forall s, digits s -> num_dec 0 s = Some (digits_value s).
Proof.
  intros s [E A]. unfold digits_value. assert (X : exists n, num_dec 0 s = Some n).
  { clear E. revert A. generalize 0%N. induction s as [|c s IH]; intros acc A; [eexists; reflexivity|]. cbn [all_chars] in A. apply andb_true_iff in A as [C A].
    cbn [num_dec]. rewrite C. auto. }
  destruct X as (n & ->). reflexivity.
Qed.
Lemma digits_app : forall a b, digits a -> digits b -> digits (a ++ b).
Proof. intros a b [A1 A2] [B1 B2]. split; [destruct a; [congruence|discriminate]|]. now rewrite all_chars_app, A2, B2. Qed.

Lemma exp_value : forall e, exponent "e" "E" ("E" ++ decZ e) = e.
Proof.
  intros e. change ("E" ++ decZ e) with (String "E" (decZ e)). unfold exponent. change (Ascii.eqb "E" "e" || Ascii.eqb "E" "E") with true. cbv iota.
  unfold decZ. destruct (e <? 0)%Z eqn:Q.
  - change (sign_of ("-" ++ dec (Z.to_N (- e)))) with (true, dec (Z.to_N (- e))). cbv iota beta.
    rewrite <- (app_nil_r (dec (Z.to_N (- e)))), take_digits_dec by exact Logic.I. cbv zeta. lia.
  - destruct (dec_cons (Z.to_N e)) as (c & r & E & C & R). destruct (digit_no_sign c C) as (S1 & S2 & _).
    assert (SG : sign_of (dec (Z.to_N e)) = (false, dec (Z.to_N e))) by (rewrite E; unfold sign_of; now rewrite S1, S2).
    rewrite SG. cbv iota beta. rewrite <- (app_nil_r (dec (Z.to_N e))), take_digits_dec by exact Logic.I. cbv zeta. lia.
Qed.
Lemma atof_num : forall n, numeral_ok n -> atof (num_text n) = num_value n.
Proof.
  intros [z|neg a b ex] H; [apply atof_int|]. destruct H as [A B]. cbn [num_text num_value].
  set (r := match ex with Some e => "E" ++ decZ e | None => "" end).
  assert (RX : not_digit_head r /\ exponent "e" "E" r = match ex with Some e => e | None => 0%Z end).
  { unfold r. destruct ex as [e|]; [|split; [exact Logic.I|reflexivity]]. split; [reflexivity|apply exp_value]. }
  destruct RX as [R1 R2]. rewrite (atof_body neg (a ++ "." ++ b ++ r)).
  - unfold body_value, mantissa. pose proof (digits_num _ (digits_app _ _ A B)) as V.
    assert (X : exists na, num_dec 0 a = Some na /\ num_dec na b = Some (digits_value (a ++ b))).
    { destruct A as [_ DA]. clear - DA V. revert V. generalize 0%N. generalize (digits_value (a ++ b)). induction a as [|c a IH]; intros n acc V; [exists acc; auto|]. cbn [all_chars] in DA. apply andb_true_iff in DA as [C DA].
      rewrite app_cons in V. cbn [num_dec] in V |- *. rewrite C in *. auto. }
    destruct X as (na & V1 & V2). rewrite (mant_digits a 0 na 0 ("." ++ b ++ r) V1 eq_refl). change ("." ++ b ++ r) with (String "." (b ++ r)). cbv iota beta.
    rewrite (mant_digits b na _ 0 r V2 R1). destruct A as [A _], B as [B _]. destruct b; [congruence|]. destruct a; [congruence|]. cbn [String.length Nat.add Nat.eqb]. rewrite R2. reflexivity.
  - destruct A as [NE DA]. destruct a as [|c a]; [congruence|]. cbn [all_chars] in DA. apply andb_true_iff in DA as [C DA]. rewrite app_cons. split; auto.
    destruct a as [|d a]; [now right|]. cbn [all_chars] in DA. apply andb_true_iff in DA as [D DA]. now left.
Qed.

Definition int_char (c : ascii) : bool := is_digit c || Ascii.eqb c "-".
Lemma decZ_chars : forall z, all_chars int_char (decZ z) = true.
Proof.
  assert (D : forall n, all_chars int_char (dec n) = true).
  { intros n. eapply all_chars_impl; [|apply dec_digits]. intros c C. unfold int_char. now rewrite C. }
  intros z. unfold decZ. destruct (z <? 0)%Z; auto. rewrite all_chars_app, D. reflexivity.
Qed.
Lemma decZ_some : forall z, decZ z <> "".
Proof. intros z. unfold decZ. destruct (z <? 0)%Z; [discriminate|apply dec_nonempty]. Qed.
Lemma has_char_app : forall c a b, has_char c (a ++ b) = has_char c a || has_char c b.
Proof. intros c a b. induction a as [|x a IH]; [reflexivity|]. rewrite app_cons. cbn [has_char]. rewrite IH. apply orb_assoc. Qed.
Lemma has_char_none : forall (p : ascii -> bool) c s, all_chars p s = true -> p c = false -> has_char c s = false.
Proof.
  intros p c s. induction s as [|x s IH]; intros A P; [reflexivity|]. cbn [all_chars] in A. apply andb_true_iff in A as [X A]. cbn [has_char].
  rewrite IH by auto. rewrite orb_false_r. apply Ascii.eqb_neq. congruence.
Qed.
Lemma marks_num : forall n, numeral_ok n -> has_any [ch 46; ch 69; ch 101] (num_text n) = fractional n.
Proof.
  intros [z|neg a b ex] H; cbn [num_text fractional].
  - unfold has_any. cbn [existsb]. rewrite !(has_char_none int_char) by (auto using decZ_chars). reflexivity.
  - unfold has_any. cbn [existsb]. rewrite !has_char_app. change (has_char (ch 46) ".") with true. rewrite !orb_true_l, !orb_true_r. reflexivity.
Qed.
Lemma int_bound : forall c, int_char c = true -> num_char c = true.
Proof. apply ascii_impl. vm_compute. reflexivity. Qed.
Lemma num_bound : forall n, numeral_ok n -> bound_text (num_text n).
Proof.
  assert (D : forall z, all_chars num_char (decZ z) = true) by (intros z; eapply all_chars_impl; [apply int_bound|apply decZ_chars]).
  intros [z|neg a b ex] H; cbn [num_text]; [split; auto using decZ_some|]. destruct H as [[A1 A2] [B1 B2]].
  split; [destruct neg; [discriminate|destruct a; [congruence|discriminate]]|].
  assert (A3 : all_chars num_char a = true) by (eapply all_chars_impl; [apply digit_num|exact A2]).
  assert (B3 : all_chars num_char b = true) by (eapply all_chars_impl; [apply digit_num|exact B2]).
  rewrite !all_chars_app, A3, B3. destruct neg, ex as [e|]; cbn [all_chars andb]; try reflexivity; rewrite all_chars_app, D; reflexivity.
Qed.
Lemma tiny_small : forall n, too_small (num_value n) = tiny n.
Proof. reflexivity. Qed.
Lemma int_not_tiny : forall z, numeral_ok (NInt z) -> tiny (NInt z) = false.
Proof. intros z H. rewrite <- tiny_small. apply int_double. exact H. Qed.

Lemma simple_iff : forall F O, numeral_ok F -> numeral_ok O ->
  negb (fractional F || fractional O) && deqb (num_value F) (dbl_of_Z 1) && deqb (num_value O) (S754_zero false) = true <-> F = NInt 1 /\ O = NInt 0.
Proof.
  intros F O HF HO. split.
  - intros H. apply andb_true_iff in H as [H Z0]. apply andb_true_iff in H as [I Z1]. destruct F as [f|], O as [o|]; try discriminate I.
    cbn [num_value] in *. split; f_equal.
    + eapply deqb_one; [exact Z1|]. apply int_double; auto.
    + eapply deqb_zero; [exact Z0|]. apply int_double; auto.
  - intros [-> ->]. reflexivity.
Qed.

(** ** The line *)

Definition sign_mark (o : layout) (s : bool) : string := order_mark o ++ (if s then "-" else "+").
Lemma line_shape : forall d, sig_line d = (" SG_ " ++ sd_name d ++ mark_text (sd_mark d)) ++ " : " ++
  (value_part (sd_start d) (sd_len d) (sign_mark (sd_order d) (sd_signed d)) (num_text (sd_factor d)) (num_text (sd_offset d)) (sd_low d) (sd_high d) ++ " ")
  ++ String DQ (sd_unit d ++ String DQ (" " ++ commas (sd_recs d))).
Proof.
  intros d. unfold sig_line, sg_line, value_part, sign_mark. rewrite !app_assoc. reflexivity.
Qed.

Lemma unit_noquote : forall c, unit_char c = true -> is_quote c = false.
Proof. apply ascii_excl. vm_compute. reflexivity. Qed.
Lemma unit_nocolon : forall c, unit_char c = true -> negb (Ascii.eqb c ":") = true.
Proof. apply ascii_impl. vm_compute. reflexivity. Qed.
Lemma node_nocolon : forall c, node_char c = true -> negb (Ascii.eqb c ":") = true.
Proof. apply ascii_impl. vm_compute. reflexivity. Qed.
Lemma num_nocolon : forall c, num_char c = true -> negb (Ascii.eqb c ":") = true.
Proof. apply ascii_impl. vm_compute. reflexivity. Qed.
Lemma num_quote : forall c, num_char c = true -> is_quote c = false.
Proof. apply ascii_excl. vm_compute. reflexivity. Qed.
Lemma num_vis : forall c, num_char c = true -> is_space c = false.
Proof. apply ascii_excl. vm_compute. reflexivity. Qed.
Lemma node_quote : forall c, node_char c = true -> is_quote c = false.
Proof. apply ascii_excl. vm_compute. reflexivity. Qed.

Lemma sign_bound : forall o s, bound_text (sign_mark o s).
Proof. intros o s. split; [destruct o; discriminate|]. destruct o, s; reflexivity. Qed.
Lemma dec_bound : forall n, bound_text (dec n).
Proof. intros n. split; [apply dec_nonempty|]. eapply all_chars_impl; [apply digit_num|apply dec_digits]. Qed.

Definition mark_word (m : mux_mark) : option string :=
  match m with MarkNone => None | MarkMaster => Some "M" | MarkValue n => Some ("m" ++ dec n) end.
Lemma mark_same : forall m, mark_text m = mux_text (mark_word m).
Proof. intros [| |n]; reflexivity. Qed.
Lemma digit_nodech : forall c, is_digit c = true -> node_char c = true.
Proof. apply ascii_impl. vm_compute. reflexivity. Qed.
Lemma mark_node : forall m w, mark_word m = Some w -> node_name w.
Proof.
  intros [| |n] w E; cbn [mark_word] in E; [discriminate| |].
  - injection E as <-. split; [discriminate|reflexivity].
  - replace w with ("m" ++ dec n) by congruence. split; [discriminate|]. change (all_chars node_char ("m" ++ dec n)) with (all_chars node_char (dec n)).
    eapply all_chars_impl; [apply digit_nodech|apply dec_digits].
Qed.

Lemma value_chars : forall (p : ascii -> bool) start len mark f o lo hi, (forall c, num_char c = true -> p c = true) ->
  all_chars p "|@ (,)[]" = true ->
  bound_text mark -> bound_text f -> bound_text o -> bound_text lo -> bound_text hi ->
  all_chars p (value_part start len mark f o lo hi) = true.
Proof.
  intros p start len mark f o lo hi P S [_ M] [_ F] [_ O] [_ L] [_ H]. destruct (dec_bound start) as [_ D1], (dec_bound len) as [_ D2].
  assert (W : forall s, all_chars num_char s = true -> all_chars p s = true) by (intros; eapply all_chars_impl; [exact P|auto]).
  cbn [all_chars] in S. repeat (apply andb_true_iff in S as [? S]). unfold value_part. rewrite !all_chars_app, (W _ D1), (W _ D2), (W _ M), (W _ F), (W _ O), (W _ L), (W _ H). cbn [all_chars].
  repeat match goal with H : p _ = true |- _ => rewrite H; clear H end. reflexivity.
Qed.
Lemma commas_chars : forall (p : ascii -> bool) l, p ","%char = true -> (forall c, node_char c = true -> p c = true) -> (forall x, In x l -> node_name x) -> all_chars p (commas l) = true.
Proof. intros p l C N H. apply commas_all; auto. intros x X. destruct (H x X) as [_ A]. eapply all_chars_impl; [exact N|exact A]. Qed.

(** what is read *)
Definition built (d : sigdecl) (types : cty * cty) : signal :=
  let simple := negb (fractional (sd_factor d) || fractional (sd_offset d)) && deqb (num_value (sd_factor d)) (dbl_of_Z 1)
                && deqb (num_value (sd_offset d)) (S754_zero false) in
  {| s_name := if simple then sd_name d else sd_name d ++ "_ro";
     s_namefloat := if simple then "" else sd_name d ++ "_phys";
     s_unit := sd_unit d; s_start := Z.of_N (sd_start d); s_len := Z.of_N (sd_len d);
     s_double := fractional (sd_factor d) || fractional (sd_offset d); s_simple := simple;
     s_factor := num_value (sd_factor d); s_offset := num_value (sd_offset d); s_order := sd_order d; s_signed := sd_signed d;
     s_typero := fst types; s_typephys := snd types; s_recs := sd_recs d; s_valdefs := []; s_comment := ""; s_valtext := "";
     s_mux := mark_kind (sd_mark d) |}.

Theorem line_read : forall d, decl_ok d -> tiny (sd_factor d) = false -> tiny (sd_offset d) = false ->
  parse_signal_line (sig_line d) =
    (do types <- get_sig_type (sd_signed d) (Z.of_N (sd_len d)) (fractional (sd_factor d) || fractional (sd_offset d))
                   (num_value (sd_factor d)) (num_value (sd_offset d));
     Ok (Some (built d types))).
Proof.
  intros d [N S L F O LO HI U RS R] TF TO. rewrite line_shape.
  set (vp := value_part (sd_start d) (sd_len d) (sign_mark (sd_order d) (sd_signed d)) (num_text (sd_factor d)) (num_text (sd_offset d)) (sd_low d) (sd_high d)).
  assert (BF : bound_text (num_text (sd_factor d))) by now apply num_bound. assert (BO : bound_text (num_text (sd_offset d))) by now apply num_bound.
  assert (BM : bound_text (sign_mark (sd_order d) (sd_signed d))) by apply sign_bound.
  assert (VC : no_colon vp = true) by (apply value_chars; auto using num_nocolon).
  assert (VQ : not_in is_quote vp) by (apply value_chars; auto; intros c C; now rewrite (num_quote c C)).
  assert (VE : ends_visible vp = true).
  { unfold vp, value_part. rewrite !vis_app; try reflexivity; try discriminate;
      repeat match goal with |- ?a ++ ?b <> "" => first [discriminate | destruct a; [|discriminate]; cbn [append]] end; try discriminate. }
  assert (VH : match vp with String c _ => is_space c = false | EmptyString => True end).
  { unfold vp, value_part. destruct (dec_cons (sd_start d)) as (c & r & -> & C & _). rewrite app_cons. apply num_vis, digit_num, C. }
  destruct (commas_vis _ RS R) as (CE & CV & CH).
  assert (HA : no_colon (" SG_ " ++ sd_name d ++ mark_text (sd_mark d)) = true /\ ends_visible (" SG_ " ++ sd_name d ++ mark_text (sd_mark d)) = true).
  { destruct N as [N1 N2]. assert (X : no_colon (sd_name d) = true) by (eapply all_chars_impl; [apply node_nocolon|exact N2]).
    assert (Y : ends_visible (sd_name d) = true) by (destruct (all_last _ _ N1 N2) as (c & E & C); unfold ends_visible; rewrite E, (node_vis _ C); reflexivity).
    rewrite mark_same. pose proof (mark_node (sd_mark d)) as M. destruct (mark_word (sd_mark d)) as [w|]; cbn [mux_text].
    - destruct (M w eq_refl) as [W1 W2]. assert (XW : no_colon w = true) by (eapply all_chars_impl; [apply node_nocolon|exact W2]).
      unfold no_colon in *. rewrite !all_chars_app, X, XW. split; [reflexivity|].
      rewrite vis_app by (destruct (sd_name d); discriminate). rewrite vis_app by discriminate. rewrite vis_app by auto.
      destruct (all_last _ _ W1 W2) as (c & E & C). unfold ends_visible. now rewrite E, (node_vis _ C).
    - rewrite app_nil_r. unfold no_colon in *. rewrite all_chars_app, X. split; [reflexivity|]. now rewrite vis_app. }
  destruct HA as [HA HV].
  set (tail := (vp ++ " ") ++ String DQ (sd_unit d ++ String DQ (" " ++ commas (sd_recs d)))).
  assert (SL : split_colon ((" SG_ " ++ sd_name d ++ mark_text (sd_mark d)) ++ " : " ++ tail) = [" SG_ " ++ sd_name d ++ mark_text (sd_mark d); tail]).
  { apply split_line; auto.
    - unfold tail, no_colon. rewrite !all_chars_app. cbn [all_chars]. rewrite all_chars_app. cbn [all_chars]. rewrite all_chars_app.
      unfold no_colon in VC. rewrite VC, (commas_chars _ _ eq_refl node_nocolon R). replace (all_chars (fun c => negb (Ascii.eqb c ":")) (sd_unit d)) with true; [reflexivity|].
      symmetry. eapply all_chars_impl; [apply unit_nocolon|exact U].
    - unfold tail. destruct vp; discriminate.
    - unfold tail. destruct vp as [|c r]; [discriminate VE|]. rewrite !app_cons. exact VH. }
  assert (ST : split_each is_quote tail = [vp ++ " "; sd_unit d; " " ++ commas (sd_recs d)]).
  { unfold split_each, tail. rewrite each_tok; [|apply not_in_app; [exact VQ|reflexivity]|reflexivity].
    rewrite each_tok; [|eapply not_in_of; [exact U|apply unit_noquote]|reflexivity].
    rewrite each_end0; [reflexivity| |discriminate]. apply not_in_app; [reflexivity|].
    unfold not_in. apply commas_chars; auto. intros c C. now rewrite (node_quote c C). }
  assert (SV : split_runs recv_delim (trim (vp ++ " ")) = [dec (sd_start d); dec (sd_len d); sign_mark (sd_order d) (sd_signed d); num_text (sd_factor d); num_text (sd_offset d); sd_low d; sd_high d]).
  { unfold trim. rewrite (proj2 (rtrim_vis _ VE)). replace (drop_while is_space vp) with vp by (destruct vp as [|c r]; [reflexivity|]; cbn [drop_while]; now rewrite VH).
    now apply split_values. }
  assert (SR : split_runs recv_delim (trim (" " ++ commas (sd_recs d))) = sd_recs d).
  { unfold trim. rewrite (proj1 (rtrim_vis (" " ++ commas (sd_recs d)) ltac:(now rewrite vis_app))). change (" " ++ commas (sd_recs d)) with (String " " (commas (sd_recs d))).
    cbn [drop_while]. change (is_space " ") with true. cbv iota. replace (drop_while is_space (commas (sd_recs d))) with (commas (sd_recs d)) by (destruct (commas (sd_recs d)) as [|c r]; [reflexivity|]; cbn [drop_while]; now rewrite CH).
    now apply recv_commas. }
  assert (SI : val_items (" SG_ " ++ sd_name d ++ mark_text (sd_mark d)) = "SG_" :: sd_name d :: mux_words (mark_word (sd_mark d))).
  { rewrite mark_same. apply items_head; auto. apply mark_node. }
  assert (SN : uwrap 32 (atoi (dec (sd_start d))) = Z.of_N (sd_start d)).
  { change (2 ^ 32)%N with 4294967296%N in S. rewrite atoi_dec by lia. rewrite uwrap_swrap by lia. unfold uwrap. apply Z.mod_small. lia. }
  assert (LN : uwrap 8 (atoi (dec (sd_len d))) = Z.of_N (sd_len d)).
  { change (2 ^ 8)%N with 256%N in L. rewrite atoi_dec by lia. rewrite uwrap_swrap by lia. unfold uwrap. apply Z.mod_small. lia. }
  assert (HS : has_char "-" (sign_mark (sd_order d) (sd_signed d)) = sd_signed d) by (destruct (sd_order d), (sd_signed d); reflexivity).
  assert (HO : (if has_char "1" (sign_mark (sd_order d) (sd_signed d)) then Intel else Motorola) = sd_order d) by (destruct (sd_order d), (sd_signed d); reflexivity).
  unfold parse_signal_line. rewrite SL. cbn [nth]. rewrite ST. cbn [nth]. rewrite SV, SR, SI. cbn [List.length nth]. cbv zeta.
  rewrite !marks_num, !atof_num by auto. rewrite !tiny_small, TF, TO. cbn [orb]. cbv iota.
  rewrite SN, LN, HS, HO. cbn [Nat.ltb Nat.leb Nat.eqb].
  destruct (get_sig_type _ _ _ _ _) as [types| |]; cbn [bind]; auto. do 2 f_equal. unfold built. f_equal.
  destruct (sd_mark d); reflexivity.
Qed.

Theorem line_as : forall d r, decl_ok d -> tiny (sd_factor d) = false -> tiny (sd_offset d) = false ->
  parse_signal_line (sig_line d) = Ok r -> exists s, r = Some s /\ read_as d s.
Proof.
  intros d r OK TF TO E. rewrite line_read in E by auto.
  destruct (get_sig_type _ _ _ _ _) as [types| |]; cbn [bind] in E; try discriminate. assert (X : r = Some (built d types)) by congruence. subst r. eexists. split; [reflexivity|].
  pose proof (simple_iff _ _ (do_factor _ OK) (do_offset _ OK)) as SI. fold (unscaled d) in SI.
  constructor; try reflexivity; intros Q; unfold built; cbn [s_simple s_name s_namefloat].
  - rewrite (proj2 SI Q). auto.
  - destruct (_ && _ && _) eqn:X; [exfalso; apply Q, SI; reflexivity|]. auto.
Qed.

(** ** Files *)

Lemma sig_is : forall d, is_signal_line (sig_line d) = true.
Proof. intros d. unfold sig_line, sg_line. change (" SG_ " ++ ?x) with (String " " (String "S" (String "G" (String "_" (String " " x))))). cbn [is_signal_line]. reflexivity. Qed.

Fixpoint fine (cur : bool) (ls : list string) : Prop :=
  match ls with
  | [] => True
  | l :: r =>
      let cur' := if is_message_line l then some (parse_message_line l) else cur in
      (cur' = true -> is_signal_line l = true -> exists o, parse_signal_line l = Ok o) /\ fine (cur' && negb (closes l)) r
  end.
Lemma fold_fine : forall srt ls st st', fold_res (info_line srt) st ls = Ok st' -> fine (some (p_cur st)) (map str_trim ls).
Proof.
  intros srt. induction ls as [|raw ls IH]; intros st st' H; cbn [map fine]; auto.
  cbn [fold_res] in H. destruct (info_line srt st raw) as [st1| |] eqn:E; cbn [bind] in H; try discriminate.
  specialize (IH _ _ H). unfold info_line in E. set (l := str_trim raw) in *. destruct (find_version l) as [ver| |]; cbn [bind] in E; try discriminate.
  set (cur0 := if is_message_line l then parse_message_line l else p_cur st).
  assert (C0 : (if is_message_line l then some (parse_message_line l) else some (p_cur st)) = some cur0) by (unfold cur0; destruct (is_message_line l); reflexivity).
  rewrite C0. assert (X : (some cur0 = true -> is_signal_line l = true -> exists o, parse_signal_line l = Ok o) /\
    exists c1, (p_cur st1 = if closes l then None else c1) /\ some c1 = some cur0).
  { unfold closes. destruct (parse_multi_trans l) as [txid txs] eqn:T. cbn [fst].
    assert (G : forall a b c, (do cur <- match cur0 with Some m => if is_signal_line l then do s <- parse_signal_line l; Ok (Some (match s with Some s => push_sig m s | None => m end)) else Ok cur0 | None => Ok cur0 end;
        if (txid =? 0)%Z then Ok {| p_msgs := a; p_max := b; p_hi := fst c; p_low := snd c; p_cur := cur |} else
        Ok {| p_msgs := update_message (add_message srt a cur) txid (fun m => with_trans m (fold_left add_new txs (g_trans m))); p_max := b; p_hi := fst c; p_low := snd c; p_cur := None |}) = Ok st1 ->
      (some cur0 = true -> is_signal_line l = true -> exists o, parse_signal_line l = Ok o) /\ exists c1, (p_cur st1 = if negb (txid =? 0)%Z then None else c1) /\ some c1 = some cur0).
    { clear. intros a b c E. destruct cur0 as [m|].
      - destruct (is_signal_line l).
        + destruct (parse_signal_line l) as [o| |]; cbn [bind] in E; try discriminate. split; [eauto|]. exists (Some (match o with Some s => push_sig m s | None => m end)). split; [|reflexivity].
          destruct (txid =? 0)%Z; injection E as <-; reflexivity.
        + cbn [bind] in E. split; [discriminate|]. exists (Some m). split; [|reflexivity]. destruct (txid =? 0)%Z; injection E as <-; reflexivity.
      - cbn [bind] in E. split; [discriminate|]. exists None. split; [|reflexivity]. destruct (txid =? 0)%Z; injection E as <-; reflexivity. }
    unfold cur0 in *. destruct (is_message_line l).
    - apply (G _ _ (match ver with Some (h, _) => h | None => p_hi st end, match ver with Some (_, h) => h | None => p_low st end) E).
    - apply (G _ _ (match ver with Some (h, _) => h | None => p_hi st end, match ver with Some (_, h) => h | None => p_low st end) E). }
  destruct X as [X1 (c1 & P & S1)]. split; [exact X1|]. rewrite P in IH. rewrite <- S1. destruct (closes l); cbn [negb].
  - rewrite andb_false_r. exact IH.
  - rewrite andb_true_r. exact IH.
Qed.

Lemma fine_groups : forall ls cur, fine cur ls ->
  (cur = true -> forall x, In x (upto closes (fst (groups ls))) -> is_signal_line x = true -> exists o, parse_signal_line x = Ok o) /\
  forall g, In g (snd (groups ls)) -> some (parse_message_line (fst g)) = true -> forall x, In x (upto closes (fst g :: snd g)) -> is_signal_line x = true -> exists o, parse_signal_line x = Ok o.
Proof.
  induction ls as [|l ls IH]; intros cur F; [split; [contradiction|contradiction]|]. cbn [fine] in F. destruct F as [F1 F2].
  specialize (IH _ F2). destruct IH as [I1 I2]. cbn [groups]. destruct (groups ls) as [pre gs]. cbn [fst snd] in *.
  change (String.prefix "BO_ " l) with (is_message_line l). destruct (is_message_line l) eqn:M; cbn [fst snd].
  - split; [contradiction|]. intros g [<-|G] P x X S; [|eauto]. cbn [fst snd] in *. cbn [upto] in X. rewrite P in *. destruct X as [<-|X]; [auto|].
    destruct (closes l); [contradiction|]. apply I1; auto.
  - split; [|eauto]. intros -> x X S. cbn [upto] in X. destruct X as [<-|X]; [auto|]. destruct (closes l); [contradiction|]. apply I1; auto.
Qed.

Lemma read_same : forall d a b, read_as d b -> same_signal a b -> read_as d a.
Proof.
  intros d a b [] (E1 & E2 & E3 & E4 & E5 & E6 & E7 & E8 & E9 & E10 & E11 & E12 & E13 & E14 & E15).
  constructor; try congruence; rewrite E7, E1, E2; auto.
Qed.

Lemma flip2 : forall A B (R : A -> B -> Prop) a b, Forall2 R a b -> Forall2 (fun y x => R x y) b a.
Proof. induction 1; constructor; auto. Qed.
