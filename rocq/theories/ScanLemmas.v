(** Splitting and reading of printed DBC lines. *)

From Coq Require Import ZArith NArith List String Ascii Bool Lia ZifyBool.
From Verif Require Import Base Dbl CSyntax Types Formatter MainGen LineParser Scanner LexLemmas ScanSpec.
Import ListNotations.
Open Scope string_scope.

(** ** Characters *)

Definition not_in (p : ascii -> bool) (s : string) : Prop := all_chars (fun c => negb (p c)) s = true.

Lemma not_in_app : forall p a b, not_in p a -> not_in p b -> not_in p (a ++ b).
Proof. unfold not_in. intros. rewrite all_chars_app. now rewrite H, H0. Qed.
Lemma not_in_of : forall (p q : ascii -> bool) s, all_chars q s = true -> (forall c, q c = true -> p c = false) -> not_in p s.
Proof. intros p q s H I. unfold not_in. eapply all_chars_impl; [|exact H]. intros c Q. now rewrite I. Qed.

Lemma ascii_cases : forall (P : ascii -> bool), forallb P (map ascii_of_nat (seq 0 256)) = true -> forall c, P c = true.
Proof.
  intros P H c. rewrite forallb_forall in H. apply H. apply in_map_iff. exists (nat_of_ascii c).
  split; [apply ascii_nat_embedding|]. apply in_seq. pose proof (nat_ascii_bounded c). lia.
Qed.
Lemma ascii_impl : forall (p q : ascii -> bool), forallb (fun c => implb (p c) (q c)) (map ascii_of_nat (seq 0 256)) = true ->
  forall c, p c = true -> q c = true.
Proof. intros p q H c P. pose proof (ascii_cases _ H c) as X. cbv beta in X. rewrite P in X. exact X. Qed.
Lemma ascii_excl : forall (p q : ascii -> bool), forallb (fun c => implb (p c) (negb (q c))) (map ascii_of_nat (seq 0 256)) = true ->
  forall c, p c = true -> q c = false.
Proof. intros p q H c P. pose proof (ascii_cases _ H c) as X. cbv beta in X. rewrite P in X. now apply negb_true_iff. Qed.

(** ** Tokens *)

Lemma rev_string_nil : forall s, rev_string s = "" -> s = "".
Proof. intros s H. apply (f_equal rev_string) in H. now rewrite rev_rev in H. Qed.

Lemma each_tok : forall p t acc seen c r, not_in p t -> p c = true ->
  split_each_from p acc seen (t ++ String c r) = (rev_string acc ++ t) :: split_each_from p "" true r.
Proof.
  induction t as [|a t IH]; intros acc seen c r N P.
  - cbn [append split_each_from]. rewrite P. now rewrite app_nil_r.
  - unfold not_in in N. cbn [all_chars] in N. apply andb_true_iff in N. destruct N as [A N]. apply negb_true_iff in A.
    rewrite app_cons. cbn [split_each_from]. rewrite A, IH by auto. rewrite rev_cons, app_assoc. reflexivity.
Qed.
Lemma each_end : forall p t acc, not_in p t -> (rev_string acc ++ t <> "") ->
  split_each_from p acc true t = [rev_string acc ++ t].
Proof.
  induction t as [|a t IH]; intros acc N E; cbn [split_each_from].
  - rewrite app_nil_r in *. destruct acc; [exfalso; apply E; reflexivity|]. reflexivity.
  - unfold not_in in N. cbn [all_chars] in N. apply andb_true_iff in N. destruct N as [A N]. apply negb_true_iff in A.
    rewrite A, IH; auto.
    + rewrite rev_cons, app_assoc. reflexivity.
    + rewrite rev_cons, app_assoc. destruct (rev_string acc); discriminate.
Qed.
Lemma each_end0 : forall p t, not_in p t -> t <> "" -> split_each_from p "" true t = [t].
Proof. intros. rewrite each_end; auto. Qed.

Lemma runs_tok : forall p t acc b c r, not_in p t -> p c = true -> (b = false \/ t <> "") ->
  split_runs_from p acc b (t ++ String c r) = (rev_string acc ++ t) :: split_runs_from p "" true r.
Proof.
  induction t as [|a t IH]; intros acc b c r N P B.
  - destruct B as [->|B]; [|congruence]. cbn [append split_runs_from]. rewrite P. now rewrite app_nil_r.
  - unfold not_in in N. cbn [all_chars] in N. apply andb_true_iff in N. destruct N as [A N]. apply negb_true_iff in A.
    rewrite app_cons. cbn [split_runs_from]. rewrite A, IH by auto. rewrite rev_cons, app_assoc. reflexivity.
Qed.
Lemma runs_skip : forall p t r, all_chars p t = true -> split_runs_from p "" true (t ++ r) = split_runs_from p "" true r.
Proof.
  induction t as [|a t IH]; intros r H; auto. cbn [all_chars] in H. apply andb_true_iff in H. destruct H as [A H].
  rewrite app_cons. cbn [split_runs_from]. now rewrite A, IH.
Qed.
Lemma runs_end : forall p t acc b, not_in p t -> (b = false \/ t <> "") -> split_runs_from p acc b t = [rev_string acc ++ t].
Proof.
  induction t as [|a t IH]; intros acc b N B; cbn [split_runs_from].
  - destruct B as [->|B]; [|congruence]. now rewrite app_nil_r.
  - unfold not_in in N. cbn [all_chars] in N. apply andb_true_iff in N. destruct N as [A N]. apply negb_true_iff in A.
    rewrite A, IH by auto. rewrite rev_cons, app_assoc. reflexivity.
Qed.
Lemma runs_tail : forall p t, all_chars p t = true -> split_runs_from p "" true t = [].
Proof. intros p t H. rewrite <- (app_nil_r t). now rewrite runs_skip. Qed.

(** ** Numbers *)

Definition not_digit_head (s : string) : Prop := match s with String c _ => is_digit c = false | EmptyString => True end.

Lemma take_digits_num : forall s acc n r, num_dec acc s = Some n -> not_digit_head r -> take_digits acc (s ++ r) = n.
Proof.
  induction s as [|c s IH]; intros acc n r H D.
  - cbn in H. injection H as <-. destruct r as [|c r]; [reflexivity|]. cbn in *. now rewrite D.
  - cbn [num_dec] in H. rewrite app_cons. cbn [take_digits]. destruct (is_digit c) eqn:E; [|discriminate].
    apply IH; auto.
Qed.
Lemma take_digits_dec : forall n r, not_digit_head r -> take_digits 0 (dec n ++ r) = n.
Proof. intros. apply take_digits_num; auto. apply num_dec_dec. Qed.

Lemma digit_no_sign : forall c, is_digit c = true ->
  Ascii.eqb c "-" = false /\ Ascii.eqb c "+" = false /\ is_space c = false.
Proof.
  intros c H. repeat split; revert c H; apply ascii_excl; vm_compute; reflexivity.
Qed.
Lemma strtoll_dec : forall n r, not_digit_head r -> strtoll (dec n ++ r) = Z.min (2 ^ 63 - 1) (Z.of_N n).
Proof.
  intros n r D. pose proof (take_digits_dec n r D) as T.
  pose proof (dec_digits n) as G. pose proof (dec_nonempty n) as E.
  destruct (dec n) as [|c t] eqn:Q; [congruence|].
  cbn [all_chars] in G. apply andb_true_iff in G. destruct G as [G _].
  destruct (digit_no_sign c G) as (A & B & C). unfold strtoll. rewrite app_cons in *. cbn [drop_while]. rewrite C.
  unfold sign_of. rewrite A, B, T. lia.
Qed.
Lemma strtoll_neg : forall n r, not_digit_head r -> strtoll ("-" ++ dec n ++ r) = Z.max (- 2 ^ 63) (- Z.of_N n).
Proof.
  intros n r D. unfold strtoll. change (drop_while is_space ("-" ++ dec n ++ r)) with (String "-" (dec n ++ r)).
  change (sign_of (String "-" (dec n ++ r))) with (true, dec n ++ r). cbv beta iota zeta.
  rewrite take_digits_dec by auto. lia.
Qed.

(** ** Trimming *)

Lemma rtrim_solid : forall s, solid_end s = true -> rtrim_chars s = s.
Proof.
  induction s as [|c s IH]; intros H; [reflexivity|]. cbn [rtrim_chars].
  destruct s as [|d s].
  - unfold solid_end in H. cbn [last_char] in H. cbn [rtrim_chars].
    unfold schar. replace (Z.of_N (code c) <? 128)%Z with true by lia.
    replace (32 <? Z.of_N (code c))%Z with true by lia. reflexivity.
  - rewrite IH; [reflexivity|exact H].
Qed.
Lemma solid_nonempty : forall s, solid_end s = true -> s <> "".
Proof. intros s H ->. discriminate. Qed.
Lemma trim_solid : forall s, solid_end s = true -> str_trim s = s.
Proof. intros s H. destruct s; [discriminate|]. unfold str_trim. now apply rtrim_solid. Qed.
Lemma solid_app : forall a b, b <> "" -> solid_end (a ++ b) = solid_end b.
Proof. intros. unfold solid_end. now rewrite last_char_app. Qed.
Lemma solid_node : forall s, s <> "" -> all_chars (fun c => (32 <? code c)%N && (code c <? 128)%N) s = true -> solid_end s = true.
Proof.
  induction s as [|c s IH]; intros E H; [congruence|]. cbn [all_chars] in H. apply andb_true_iff in H. destruct H as [A B].
  destruct s; [exact A|]. exact (IH ltac:(discriminate) B).
Qed.
