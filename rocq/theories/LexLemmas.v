(** Facts about the C front end and about printed numbers, used by the proofs. *)

From Coq Require Import ZArith NArith List String Ascii Bool Lia.
From Verif Require Import Base CSyntax.
Import ListNotations.
Open Scope string_scope.

(** ** Strings *)

Lemma app_nil_r : forall s : string, s ++ "" = s.
Proof. induction s; simpl; congruence. Qed.

Lemma app_assoc : forall a b c : string, (a ++ b) ++ c = a ++ (b ++ c).
Proof. induction a; simpl; intros; congruence. Qed.

Lemma app_len : forall a b : string,
  String.length (a ++ b) = (String.length a + String.length b)%nat.
Proof. induction a; simpl; intros; auto. Qed.

Lemma rev_app_spec : forall s acc, rev_string_app s acc = rev_string s ++ acc.
Proof.
  unfold rev_string. intros s. induction s as [|c s IH]; intros acc; simpl; auto.
  rewrite IH, (IH (String c "")), app_assoc. reflexivity.
Qed.

Lemma rev_cons : forall c s, rev_string (String c s) = rev_string s ++ String c "".
Proof. intros. unfold rev_string at 1. simpl. now rewrite rev_app_spec. Qed.

Lemma rev_app : forall a b, rev_string (a ++ b) = rev_string b ++ rev_string a.
Proof.
  induction a; intros; simpl.
  - now rewrite app_nil_r.
  - now rewrite !rev_cons, IHa, app_assoc.
Qed.

Lemma rev_rev : forall s, rev_string (rev_string s) = s.
Proof.
  induction s; auto. rewrite rev_cons, rev_app, IHs. reflexivity.
Qed.

Lemma all_chars_app : forall p a b, all_chars p (a ++ b) = all_chars p a && all_chars p b.
Proof. induction a; simpl; intros; auto. rewrite IHa. now destruct (p a). Qed.

Lemma all_chars_impl : forall (p q : ascii -> bool) s,
  (forall c, p c = true -> q c = true) -> all_chars p s = true -> all_chars q s = true.
Proof.
  induction s; simpl; intros; auto.
  apply andb_true_iff in H0. destruct H0. rewrite H; auto.
Qed.

Lemma last_char_app : forall a b, b <> "" -> last_char (a ++ b) = last_char b.
Proof.
  induction a; simpl; intros; auto.
  destruct (a0 ++ b) eqn:E.
  - destruct a0; simpl in E; [subst; congruence | discriminate].
  - rewrite <- E. auto.
Qed.

Lemma app_cons : forall c a b, String c a ++ b = String c (a ++ b).
Proof. reflexivity. Qed.

Lemma substring_0_all : forall s n, (String.length s <= n)%nat -> substring 0 n s = s.
Proof.
  induction s; intros [|n] H; simpl in *; auto; try lia.
  f_equal. apply IHs. lia.
Qed.

Lemma cut_short : forall n s, (String.length s < n)%nat -> cut n s = s.
Proof. intros. unfold cut. apply substring_0_all. lia. Qed.

(** ** Lexing *)

(** the state after a text and the tokens it completes *)
Fixpoint lend (s : lstate) (t : string) : lstate :=
  match t with
  | EmptyString => s
  | String c r => lend (snd (lstep s c)) r
  end.
Fixpoint lemit (s : lstate) (t : string) : list tok :=
  match t with
  | EmptyString => []
  | String c r => (fst (lstep s c) ++ lemit (snd (lstep s c)) r)%list
  end.

Lemma lex_split : forall a s b, lex_from s (a ++ b) = (lemit s a ++ lex_from (lend s a) b)%list.
Proof.
  induction a; intros; simpl; auto.
  destruct (lstep s a) as [l s']. simpl. rewrite IHa. now rewrite List.app_assoc.
Qed.

Lemma lex_space : forall r, lex_from LIdle (String " " r) = lex_from LIdle r.
Proof. reflexivity. Qed.

(** punctuation that never combines with a following character *)
Definition solo (c : ascii) : bool :=
  match punct1 c with
  | Some _ => negb (smem (String c "") ["-"; "+"; "<"; ">"; "="; "!"; "&"; "|"; "/"])
  | None => false
  end.

Lemma solo_punct2 : forall c d, solo c = true -> punct2 c d = None /\ Ascii.eqb c "/" = false.
Proof.
  intros c d H. unfold solo in H.
  destruct (punct1 c); try discriminate.
  apply negb_true_iff in H. unfold smem in H. simpl in H.
  repeat (apply orb_false_iff in H; destruct H as [? H]).
  unfold punct2.
  repeat match goal with
         | X : ((_ =? _)%char && true)%bool = false |- _ => rewrite andb_true_r in X
         end.
  assert (F : forall x, String.eqb (String c "") (String x "") = Ascii.eqb c x)
    by (intros; simpl; now destruct (Ascii.eqb c x)).
  repeat match goal with
         | X : (if (c =? ?x)%char then _ else _) = false |- _ =>
             let Y := fresh in
             assert (Y : Ascii.eqb c x = false) by (destruct (Ascii.eqb c x); auto; discriminate);
             rewrite Y; clear X
         end.
  auto.
Qed.

Lemma lex_solo : forall c q r, solo c = true -> punct1 c = Some q ->
  lex_from (LPunct c) r = TP q :: lex_from LIdle r.
Proof.
  intros c q r S P. destruct r as [|d r]; cbn [lex_from lflush lstep].
  - now rewrite P.
  - destruct (solo_punct2 c d S) as [E1 E2]. rewrite E2, E1, P. cbn [andb].
    destruct (lstart d) as [l s']. reflexivity.
Qed.

Lemma solo_start : forall c q, solo c = true -> punct1 c = Some q -> lstart c = ([], LPunct c).
Proof.
  intros c q S P. unfold lstart.
  destruct (is_idchar c) eqn:E.
  - exfalso. unfold solo in S. revert S E P. clear.
    destruct c as [[] [] [] [] [] [] [] []]; vm_compute; congruence.
  - destruct (is_blank c) eqn:E2.
    + exfalso. revert E2 P. clear.
      destruct c as [[] [] [] [] [] [] [] []]; vm_compute; congruence.
    + now rewrite P.
Qed.

Lemma lex_idle_solo : forall c q r, solo c = true -> punct1 c = Some q ->
  lex_from LIdle (String c r) = TP q :: lex_from LIdle r.
Proof.
  intros. cbn [lex_from lstep]. rewrite (solo_start c q); auto. cbn [List.app].
  now apply lex_solo.
Qed.

(** operator followed by a blank *)
Lemma lex_op_blank : forall c q r, punct1 c = Some q -> Ascii.eqb c " " = false ->
  is_idchar c = false -> is_blank c = false ->
  lex_from LIdle (String c (String " " r)) = TP q :: lex_from LIdle r.
Proof.
  intros c q r P B1 B2 B3. cbn [lex_from lstep]. unfold lstart. rewrite B2, B3, P.
  cbn [List.app]. cbn [lex_from lstep].
  assert (E : punct2 c " " = None).
  { unfold punct2. rewrite !andb_false_r. reflexivity. }
  rewrite E, P. rewrite andb_false_r. reflexivity.
Qed.

(** a word followed by a character that ends it *)
Definition word_ends (c : ascii) : bool := negb (is_idchar c || Ascii.eqb c ".").

Lemma lex_inword : forall w num rw c r,
  all_chars is_idchar w = true -> word_ends c = true ->
  lex_from (LWord num rw) (w ++ String c r)
  = word (rev_string rw ++ w) :: lex_from LIdle (String c r).
Proof.
  induction w as [|d w IH]; intros num rw c r A E.
  - cbn [String.append lex_from lstep]. unfold word_ends in E. apply negb_true_iff in E.
    apply orb_false_iff in E. destruct E as [E1 E2]. rewrite E1, E2, andb_false_r. cbn [orb].
    rewrite app_nil_r. cbn [lstep]. destruct (lstart c) as [l s']. reflexivity.
  - cbn [all_chars] in A. apply andb_true_iff in A. destruct A as [A1 A2].
    rewrite app_cons. cbn [lex_from lstep]. rewrite A1. cbn [orb List.app].
    rewrite IH; auto. rewrite rev_cons, app_assoc. reflexivity.
Qed.

Lemma lex_word : forall w c r,
  w <> "" -> all_chars is_idchar w = true -> word_ends c = true ->
  lex_from LIdle (w ++ String c r) = word w :: lex_from LIdle (String c r).
Proof.
  intros [|d w] c r N A E; [congruence|].
  cbn [all_chars] in A. apply andb_true_iff in A. destruct A as [A1 A2].
  rewrite app_cons. cbn [lex_from lstep]. unfold lstart. rewrite A1. cbn [List.app].
  rewrite lex_inword; auto.
Qed.

Lemma lex_word_end : forall w, w <> "" -> all_chars is_idchar w = true ->
  lex_from LIdle w = [word w].
Proof.
  assert (H : forall w num rw, all_chars is_idchar w = true ->
             lex_from (LWord num rw) w = [word (rev_string rw ++ w)]).
  { induction w as [|d w IH]; intros num rw A.
    - simpl. now rewrite app_nil_r.
    - cbn [all_chars] in A. apply andb_true_iff in A. destruct A as [A1 A2].
      cbn [lex_from lstep]. rewrite A1. cbn [orb List.app].
      rewrite IH; auto. rewrite rev_cons, app_assoc. reflexivity. }
  intros [|d w] N A; [congruence|].
  cbn [all_chars] in A. apply andb_true_iff in A. destruct A as [A1 A2].
  cbn [lex_from lstep]. unfold lstart. rewrite A1. cbn [List.app]. rewrite H; auto.
Qed.

Lemma ident_chars : forall w, is_ident w = true -> all_chars is_idchar w = true.
Proof.
  intros [|c w] H; [discriminate|]. simpl in *. apply andb_true_iff in H. destruct H as [A B].
  unfold is_idchar at 1. rewrite A. auto.
Qed.
Lemma ident_nonempty : forall w, is_ident w = true -> w <> "".
Proof. intros [|c w] H; [discriminate|congruence]. Qed.

Lemma idstart_not_digit : forall c, is_idstart c = true -> is_digit c = false.
Proof. intros c. destruct c as [[] [] [] [] [] [] [] []]; vm_compute; congruence. Qed.

Lemma word_ident : forall w, is_ident w = true -> word w = TId w.
Proof.
  intros w H. unfold word. destruct w as [|c w]; [discriminate|].
  assert (is_digit c = false).
  { apply idstart_not_digit. simpl in H. apply andb_true_iff in H. tauto. }
  rewrite H0. now rewrite H.
Qed.

Lemma lex_ident : forall w c r, is_ident w = true -> word_ends c = true ->
  lex_from LIdle (w ++ String c r) = TId w :: lex_from LIdle (String c r).
Proof.
  intros. rewrite lex_word; auto using ident_chars, ident_nonempty. now rewrite word_ident.
Qed.

(** ** Printed numbers *)

Lemma xdigit_dec : forall d, (d < 10)%N -> is_digit (xdigit_chr true d) = true
  /\ digit_val (xdigit_chr true d) = d.
Proof.
  intros d H.
  assert (d = 0 \/ d = 1 \/ d = 2 \/ d = 3 \/ d = 4 \/ d = 5 \/ d = 6 \/ d = 7 \/ d = 8 \/ d = 9)%N
    by lia.
  repeat destruct H0 as [H0|H0]; subst; vm_compute; auto.
Qed.

Lemma xdigit_hex : forall up d, (d < 16)%N ->
  xdigit_val (xdigit_chr up d) = Some d /\ is_idchar (xdigit_chr up d) = true.
Proof.
  intros up d H.
  assert (d = 0 \/ d = 1 \/ d = 2 \/ d = 3 \/ d = 4 \/ d = 5 \/ d = 6 \/ d = 7 \/ d = 8 \/ d = 9
          \/ d = 10 \/ d = 11 \/ d = 12 \/ d = 13 \/ d = 14 \/ d = 15)%N
    by lia.
  destruct up; repeat destruct H0 as [H0|H0]; subst; vm_compute; auto.
Qed.

Lemma digits_dec : forall fuel n acc a, (n < 10 ^ N.of_nat fuel)%N -> (0 < fuel)%nat ->
  exists k, num_dec a (digits_aux true 10 fuel n acc) = num_dec (a * 10 ^ k + n) acc.
Proof.
  induction fuel; intros n acc a H F; [lia|].
  cbn [digits_aux].
  destruct (n <? 10)%N eqn:E.
  - apply N.ltb_lt in E. exists 1%N. cbn [num_dec].
    rewrite N.mod_small by lia.
    destruct (xdigit_dec n E) as [X Y]. rewrite X, Y. f_equal. lia.
  - apply N.ltb_ge in E.
    rewrite Nat2N.inj_succ, N.pow_succ_r' in H.
    assert (n / 10 < 10 ^ N.of_nat fuel)%N by (apply N.div_lt_upper_bound; lia).
    assert (0 < fuel)%nat by (destruct fuel; [simpl in H; lia | lia]).
    destruct (IHfuel (n / 10)%N (String (xdigit_chr true (n mod 10)) acc) a H0 H1) as [k IH].
    rewrite IH. exists (k + 1)%N. cbn [num_dec].
    assert (M : (n mod 10 < 10)%N) by (apply N.mod_lt; lia).
    destruct (xdigit_dec (n mod 10) M) as [X Y]. rewrite X, Y. f_equal.
    rewrite N.pow_add_r. pose proof (N.div_mod n 10). lia.
Qed.

Lemma digits_hex : forall up fuel n acc a, (n < 16 ^ N.of_nat fuel)%N -> (0 < fuel)%nat ->
  exists k, num_hex a (digits_aux up 16 fuel n acc) = num_hex (a * 16 ^ k + n) acc.
Proof.
  induction fuel; intros n acc a H F; [lia|].
  cbn [digits_aux].
  destruct (n <? 16)%N eqn:E.
  - apply N.ltb_lt in E. exists 1%N. cbn [num_hex].
    rewrite N.mod_small by lia.
    destruct (xdigit_hex up n E) as [X Y]. rewrite X. f_equal. lia.
  - apply N.ltb_ge in E.
    rewrite Nat2N.inj_succ, N.pow_succ_r' in H.
    assert (n / 16 < 16 ^ N.of_nat fuel)%N by (apply N.div_lt_upper_bound; lia).
    assert (0 < fuel)%nat by (destruct fuel; [simpl in H; lia | lia]).
    destruct (IHfuel (n / 16)%N (String (xdigit_chr up (n mod 16)) acc) a H0 H1) as [k IH].
    rewrite IH. exists (k + 1)%N. cbn [num_hex].
    assert (M : (n mod 16 < 16)%N) by (apply N.mod_lt; lia).
    destruct (xdigit_hex up (n mod 16) M) as [X Y]. rewrite X. f_equal.
    rewrite N.pow_add_r. pose proof (N.div_mod n 16). lia.
Qed.

Lemma log2_bound : forall b n, (2 <= b)%N -> (n < b ^ N.of_nat (S (N.to_nat (N.log2 n))))%N.
Proof.
  intros b n H. rewrite Nat2N.inj_succ, N2Nat.id.
  apply N.lt_le_trans with (2 ^ N.succ (N.log2 n))%N.
  - destruct (N.eq_dec n 0) as [->|X]; [reflexivity|]. apply N.log2_spec. lia.
  - apply N.pow_le_mono_l. lia.
Qed.

Lemma num_dec_dec : forall n, num_dec 0 (dec n) = Some n.
Proof.
  intros. unfold dec, print_base.
  destruct (digits_dec _ n "" 0 (log2_bound 10 n ltac:(lia)) ltac:(lia)) as [k E].
  rewrite E. simpl. f_equal.
Qed.

Lemma num_hex_print : forall up n, num_hex 0 (print_base up 16 n) = Some n.
Proof.
  intros. unfold print_base.
  destruct (digits_hex up _ n "" 0 (log2_bound 16 n ltac:(lia)) ltac:(lia)) as [k E].
  rewrite E. simpl. f_equal.
Qed.

Lemma digits_aux_chars : forall (p : ascii -> bool) up b fuel n acc,
  (0 < b)%N -> (forall d, (d < b)%N -> p (xdigit_chr up d) = true) ->
  all_chars p acc = true -> all_chars p (digits_aux up b fuel n acc) = true.
Proof.
  induction fuel; intros; cbn [digits_aux]; auto.
  assert (p (xdigit_chr up (n mod b)) = true) by (apply H0; apply N.mod_lt; lia).
  destruct (n <? b)%N.
  - simpl. now rewrite H2.
  - apply IHfuel; auto. simpl. now rewrite H2.
Qed.

Lemma digits_aux_nonempty : forall up b fuel n acc, (0 < fuel)%nat ->
  digits_aux up b fuel n acc <> "".
Proof.
  assert (H : forall up b fuel n acc, acc <> "" -> digits_aux up b fuel n acc <> "").
  { induction fuel; intros; cbn [digits_aux]; auto. destruct (n <? b)%N; [congruence|].
    apply IHfuel. congruence. }
  intros up b [|fuel] n acc F; [lia|]. cbn [digits_aux].
  destruct (n <? b)%N; [congruence|]. apply H. congruence.
Qed.

Lemma dec_digits : forall n, all_chars is_digit (dec n) = true.
Proof.
  intros. apply digits_aux_chars; auto; [lia|]. intros. now apply xdigit_dec.
Qed.
Lemma dec_idchars : forall n, all_chars is_idchar (dec n) = true.
Proof.
  intros. apply all_chars_impl with is_digit; [|apply dec_digits].
  intros c H. unfold is_idchar. rewrite H. apply orb_true_r.
Qed.
Lemma dec_nonempty : forall n, dec n <> "".
Proof. intros. apply digits_aux_nonempty. lia. Qed.
Lemma hex_idchars : forall up n, all_chars is_idchar (print_base up 16 n) = true.
Proof.
  intros. apply digits_aux_chars; auto; [lia|]. intros. now apply xdigit_hex.
Qed.
Lemma hex_nonempty : forall up n, print_base up 16 n <> "".
Proof. intros. apply digits_aux_nonempty. lia. Qed.

(** no leading zero *)
Lemma digits_aux_head : forall up b fuel n acc,
  (2 <= b)%N -> (n < b ^ N.of_nat fuel)%N -> (1 <= n)%N ->
  exists d r, digits_aux up b fuel n acc = String (xdigit_chr up d) r /\ (1 <= d < b)%N.
Proof.
  induction fuel; intros n acc B H P; [simpl in H; lia|].
  cbn [digits_aux]. destruct (n <? b)%N eqn:E.
  - apply N.ltb_lt in E. rewrite N.mod_small by lia. exists n, acc. auto.
  - apply N.ltb_ge in E.
    rewrite Nat2N.inj_succ, N.pow_succ_r' in H.
    apply IHfuel; auto.
    + apply N.div_lt_upper_bound; lia.
    + apply N.div_le_lower_bound; lia.
Qed.

Lemma dec_head : forall n, (1 <= n)%N ->
  exists c r, dec n = String c r /\ is_digit c = true /\ c <> "0"%char.
Proof.
  intros n H. unfold dec, print_base.
  destruct (digits_aux_head true 10 _ n "" ltac:(lia) (log2_bound 10 n ltac:(lia)) H)
    as (d & r & E & D).
  rewrite E. exists (xdigit_chr true d), r. repeat split; auto.
  - apply xdigit_dec. lia.
  - intros X. destruct (xdigit_dec d ltac:(lia)) as [_ Y]. rewrite X in Y.
    vm_compute in Y. lia.
Qed.

Lemma strip_u_U : forall s, strip_u (s ++ "U") = (s, true).
Proof.
  induction s as [|c s IH]; auto.
  rewrite app_cons. cbn [strip_u].
  destruct (s ++ "U") eqn:E.
  - destruct s; discriminate.
  - rewrite IH. reflexivity.
Qed.

Lemma strip_u_digits : forall s, all_chars is_digit s = true -> strip_u s = (s, false).
Proof.
  induction s as [|c s IH]; intros H; auto.
  cbn [all_chars] in H. apply andb_true_iff in H. destruct H as [A B].
  cbn [strip_u]. rewrite IH by auto.
  destruct s.
  - destruct (Ascii.eqb c "U") eqn:E1.
    { apply Ascii.eqb_eq in E1. subst. discriminate. }
    destruct (Ascii.eqb c "u") eqn:E2.
    { apply Ascii.eqb_eq in E2. subst. discriminate. }
    reflexivity.
  - reflexivity.
Qed.

Lemma has_char_false : forall c s p, all_chars p s = true -> p c = false -> has_char c s = false.
Proof.
  induction s as [|d s IH]; intros p A P; auto. cbn [all_chars has_char] in *.
  apply andb_true_iff in A. destruct A as [A1 A2].
  destruct (Ascii.eqb c d) eqn:E.
  - apply Ascii.eqb_eq in E. subst. congruence.
  - simpl. eapply IH; eauto.
Qed.

Lemma has_char_app : forall c a b, has_char c (a ++ b) = has_char c a || has_char c b.
Proof. induction a; simpl; intros; auto. rewrite IHa. now rewrite orb_assoc. Qed.

(** a number that is not an octal or hexadecimal constant *)
Lemma num_word_dec_body : forall n (u : bool) w,
  (forall b, strip_u w = b -> b = (dec n, u)) -> has_char "." w = false ->
  num_word w = int_const false u n.
Proof.
  intros n u w S D. unfold num_word. rewrite D.
  rewrite (S _ eq_refl).
  destruct (N.eq_dec n 0) as [->|X].
  - reflexivity.
  - destruct (dec_head n ltac:(lia)) as (c & r & E & Dg & Nz).
    assert (R : num_dec 0 (dec n) = Some n) by apply num_dec_dec.
    rewrite E in *.
    assert (Nz' : Ascii.eqb c "0" = false) by now apply Ascii.eqb_neq.
    destruct c as [[] [] [] [] [] [] [] []]; try discriminate Nz'; try (rewrite R; reflexivity).
Qed.

Lemma num_word_dec : forall n, num_word (dec n) = int_const false false n.
Proof.
  intros. apply num_word_dec_body.
  - intros b <-. apply strip_u_digits, dec_digits.
  - apply has_char_false with is_digit; [apply dec_digits | reflexivity].
Qed.

Lemma num_word_decU : forall n, num_word (dec n ++ "U") = int_const false true n.
Proof.
  intros. apply num_word_dec_body.
  - intros b <-. apply strip_u_U.
  - rewrite has_char_app. simpl. rewrite orb_false_r.
    apply has_char_false with is_digit; [apply dec_digits | reflexivity].
Qed.

Lemma num_word_hexU : forall up n,
  num_word ("0x" ++ print_base up 16 n ++ "U") = int_const true true n.
Proof.
  intros. unfold num_word.
  assert (D : has_char "." ("0x" ++ print_base up 16 n ++ "U") = false).
  { rewrite !has_char_app. simpl.
    rewrite (has_char_false "." (print_base up 16 n) is_idchar); auto. apply hex_idchars. }
  rewrite D.
  rewrite <- app_assoc, strip_u_U.
  cbn [String.append].
  assert (E : String.eqb (print_base up 16 n) "" = false).
  { apply String.eqb_neq. apply hex_nonempty. }
  rewrite E. cbn [negb]. cbn -[num_hex print_base]. now rewrite num_hex_print.
Qed.

Lemma word_num : forall w, (exists c r, w = String c r /\ is_digit c = true) ->
  word w = num_word w.
Proof. intros w (c & r & -> & D). unfold word. now rewrite D. Qed.

Lemma dec_starts_digit : forall n t, exists c r, dec n ++ t = String c r /\ is_digit c = true.
Proof.
  intros. pose proof (dec_digits n). pose proof (dec_nonempty n).
  destruct (dec n); [congruence|]. simpl in H. apply andb_true_iff in H.
  exists a, (s ++ t). simpl. tauto.
Qed.

Lemma word_decU : forall n, word (dec n ++ "U") = int_const false true n.
Proof. intros. rewrite word_num by apply dec_starts_digit. apply num_word_decU. Qed.
Lemma word_dec : forall n, word (dec n) = int_const false false n.
Proof.
  intros. rewrite word_num; [apply num_word_dec|].
  destruct (dec_starts_digit n "") as (c & r & E & D). rewrite app_nil_r in E. eauto.
Qed.
Lemma word_hexU : forall up n, word ("0x" ++ print_base up 16 n ++ "U") = int_const true true n.
Proof. intros. rewrite word_num; [apply num_word_hexU|]. do 2 eexists. split; reflexivity. Qed.

Lemma lex_decU : forall n c r, (n < 2 ^ 32)%N -> word_ends c = true ->
  lex_from LIdle (dec n ++ String "U" (String c r))
  = TInt U32 (Z.of_N n) :: lex_from LIdle (String c r).
Proof.
  intros.
  replace (dec n ++ String "U" (String c r)) with ((dec n ++ "U") ++ String c r)
    by (rewrite app_assoc; reflexivity).
  rewrite lex_word; auto.
  - rewrite word_decU. unfold int_const. change (2 ^ 32)%N with 4294967296%N in H.
    replace (Z.of_N n <? 2 ^ 32)%Z with true; auto. symmetry. apply Z.ltb_lt. lia.
  - intros X. destruct (dec_starts_digit n "U") as (a & b & E & _). rewrite E in X. discriminate.
  - rewrite all_chars_app, dec_idchars. reflexivity.
Qed.

Lemma lex_dec : forall n c r, (n < 2 ^ 31)%N -> word_ends c = true ->
  lex_from LIdle (dec n ++ String c r)
  = TInt I32 (Z.of_N n) :: lex_from LIdle (String c r).
Proof.
  intros. rewrite lex_word; auto using dec_nonempty, dec_idchars.
  rewrite word_dec. unfold int_const. change (2 ^ 31)%N with 2147483648%N in H.
  replace (Z.of_N n <? 2 ^ 31)%Z with true; auto. symmetry. apply Z.ltb_lt. lia.
Qed.

Lemma lex_hexU : forall up n c r, (n < 2 ^ 32)%N -> word_ends c = true ->
  lex_from LIdle (String "0" (String "x" (print_base up 16 n ++ String "U" (String c r))))
  = TInt U32 (Z.of_N n) :: lex_from LIdle (String c r).
Proof.
  intros.
  replace (String "0" (String "x" (print_base up 16 n ++ String "U" (String c r))))
    with (("0x" ++ print_base up 16 n ++ "U") ++ String c r)
    by (rewrite !app_assoc; reflexivity).
  rewrite lex_word; auto.
  - rewrite word_hexU. unfold int_const. change (2 ^ 32)%N with 4294967296%N in H.
    replace (Z.of_N n <? 2 ^ 32)%Z with true; auto. symmetry. apply Z.ltb_lt. lia.
  - discriminate.
  - rewrite !all_chars_app, hex_idchars. reflexivity.
Qed.

(** ** Running the parsers over concatenations *)

Lemma erun_app : forall a b s, erun s (a ++ b)
  = match erun s a with Some s' => erun s' b | None => None end.
Proof.
  induction a; intros; simpl; auto. destruct (estep s a); auto.
Qed.

Lemma srun_app : forall a b s, srun s (a ++ b)
  = match srun s a with Some s' => srun s' b | None => None end.
Proof.
  induction a; intros; simpl; auto. destruct (sstep s a); auto.
Qed.

Definition no_semi (l : list tok) : bool :=
  forallb (fun t => match t with TP PSemi => false | _ => true end) l.

(** tokens of an expression inside a statement *)
Definition plain_kind (k : ekind) : bool :=
  match k with XStmt | XReturn | XDecl _ _ | XFor1 | XFor2 _ => true | _ => false end.

Lemma srun_expr : forall l k kind es es' r, plain_kind kind = true -> no_semi l = true ->
  erun es l = Some es' ->
  srun (k, MExpr kind es) (l ++ r) = srun (k, MExpr kind es') r.
Proof.
  induction l as [|t l IH]; intros k kind es es' r P N E.
  - simpl in E. injection E as <-. reflexivity.
  - simpl in N. apply andb_true_iff in N. destruct N as [N1 N2].
    simpl in E. destruct (estep es t) as [es1|] eqn:S; [|discriminate].
    assert (X : sstep (k, MExpr kind es) t = Some (k, MExpr kind es1)).
    { unfold sstep.
      destruct t as [x|ty z|f|p|]; try (rewrite S; destruct es1 as [[|] []]; destruct kind;
        try discriminate P; reflexivity).
      destruct p; try discriminate N1;
      rewrite S; destruct es1 as [[|] []]; destruct kind; try discriminate P; reflexivity. }
    change (match sstep (k, MExpr kind es) t with
            | Some s' => srun s' (l ++ r)%list | None => None end
            = srun (k, MExpr kind es') r).
    rewrite X. apply IH; auto.
Qed.
