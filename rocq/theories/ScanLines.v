(** What the line parsers make of printed DBC lines. *)

From Coq Require Import ZArith NArith List String Ascii Bool Lia ZifyBool.
From Verif Require Import Base Dbl CSyntax Types Formatter MainGen LineParser Scanner LexLemmas ScanSpec ScanLemmas.
Import ListNotations.
Open Scope string_scope.

(** ** Message lines *)

Definition tx_char (c : ascii) : bool := negb (msg_delim c).

Lemma digit_tx : forall c, is_digit c = true -> msg_delim c = false.
Proof. apply ascii_excl. vm_compute. reflexivity. Qed.
Lemma id_tx : forall c, is_idchar c = true -> msg_delim c = false.
Proof. apply ascii_excl. vm_compute. reflexivity. Qed.
Lemma node_tx : forall c, node_char c = true -> msg_delim c = false.
Proof. apply ascii_excl. vm_compute. reflexivity. Qed.

Lemma split_bo : forall id name dlc tx, not_in msg_delim name -> not_in msg_delim tx -> tx <> "" ->
  split_each msg_delim (bo_line id name dlc tx) = ["BO_"; dec id; name; ""; dec dlc; tx].
Proof.
  intros id name dlc tx N T E. unfold split_each, bo_line.
  change ("BO_ " ++ ?x) with ("BO_" ++ String " " x).
  rewrite each_tok by reflexivity. cbn [rev_string rev_string_app append]. f_equal.
  change (dec id ++ " " ++ ?x) with (dec id ++ String " " x).
  rewrite each_tok; [|eapply not_in_of; [apply dec_digits|apply digit_tx]|reflexivity]. cbn [rev_string rev_string_app append]. f_equal.
  change (name ++ ": " ++ ?x) with (name ++ String ":" (String " " x)).
  rewrite each_tok by auto. cbn [rev_string rev_string_app append]. f_equal.
  change (String " " ?x) with ("" ++ String " " x) at 1.
  rewrite each_tok by reflexivity. cbn [rev_string rev_string_app append]. f_equal.
  change (dec dlc ++ " " ++ ?x) with (dec dlc ++ String " " x).
  rewrite each_tok; [|eapply not_in_of; [apply dec_digits|apply digit_tx]|reflexivity]. cbn [rev_string rev_string_app append]. f_equal.
  apply each_end0; auto.
Qed.

Lemma atoll_dec : forall n, (Z.of_N n < 2 ^ 63)%Z -> atoll (dec n) = Z.of_N n.
Proof. intros n H. unfold atoll. rewrite <- (app_nil_r (dec n)), strtoll_dec by exact Logic.I. lia. Qed.
Lemma atoi_dec : forall n, (Z.of_N n < 2 ^ 63)%Z -> atoi (dec n) = swrap 32 (Z.of_N n).
Proof. intros n H. unfold atoi. rewrite <- (app_nil_r (dec n)), strtoll_dec by exact Logic.I. f_equal. lia. Qed.
Lemma uwrap_swrap : forall w v z, (0 < v <= w)%Z -> uwrap v (swrap w z) = uwrap v z.
Proof.
  intros w v z H. unfold uwrap, swrap. cbv zeta.
  assert (E : (2 ^ w = 2 ^ (w - v) * 2 ^ v)%Z) by (rewrite <- Z.pow_add_r by lia; f_equal; lia).
  assert (P : (0 < 2 ^ v)%Z) by (apply Z.pow_pos_nonneg; lia).
  assert (Q : (0 < 2 ^ (w - v))%Z) by (apply Z.pow_pos_nonneg; lia).
  assert (M : ((z mod 2 ^ w) mod 2 ^ v = z mod 2 ^ v)%Z).
  { rewrite E. rewrite Z.mul_comm, Z.rem_mul_r by lia. rewrite Z.mul_comm, Z_mod_plus_full. now rewrite Z.mod_mod by lia. }
  destruct (_ <? _)%Z; [exact M|].
  rewrite E at 2. unfold Z.sub. rewrite <- Z.mul_opp_l, Z_mod_plus_full. exact M.
Qed.

Lemma testbit_land : forall z k, (0 <= k)%Z -> (Z.land z (2 ^ k) =? 0)%Z = negb (Z.testbit z k).
Proof.
  intros z k K. destruct (Z.testbit z k) eqn:E; cbn [negb].
  - apply Z.eqb_neq. intros X. apply (f_equal (fun y => Z.testbit y k)) in X.
    rewrite Z.land_spec, E, Z.pow2_bits_true, Z.bits_0 in X by lia. discriminate.
  - apply Z.eqb_eq. apply Z.bits_inj_0. intros n. rewrite Z.land_spec.
    destruct (Z.eq_dec n k) as [->|N]; [now rewrite E|]. rewrite Z.pow2_bits_false by lia. apply andb_false_r.
Qed.

Lemma id_refused : forall z, (negb (Z.land z 0x60000000 =? 0)%Z) = (Z.testbit z 29 || Z.testbit z 30).
Proof.
  intros z. replace 0x60000000%Z with (Z.lor (2 ^ 29) (2 ^ 30)) by reflexivity. rewrite Z.land_lor_distr_r.
  pose proof (testbit_land z 29 ltac:(lia)) as A. pose proof (testbit_land z 30 ltac:(lia)) as B.
  destruct (Z.testbit z 29), (Z.testbit z 30); cbn [orb negb] in *; apply negb_true_iff || apply negb_false_iff.
  - apply Z.eqb_neq. intros X. apply Z.lor_eq_0_iff in X. destruct X as [X _]. apply Z.eqb_neq in A. auto.
  - apply Z.eqb_neq. intros X. apply Z.lor_eq_0_iff in X. destruct X as [X _]. apply Z.eqb_neq in A. auto.
  - apply Z.eqb_neq. intros X. apply Z.lor_eq_0_iff in X. destruct X as [_ X]. apply Z.eqb_neq in B. auto.
  - apply Z.eqb_eq in A, B. rewrite A, B. reflexivity.
Qed.
Lemma id_clear : forall z, clear_msgid z = (z mod 2 ^ 29)%Z.
Proof. intros z. unfold clear_msgid. change 0x1FFFFFFF%Z with (Z.ones 29). now rewrite Z.land_ones by lia. Qed.
Lemma id_ext : forall z, (0 <= z < 2 ^ 32)%Z -> (Z.land (uwrap 8 (Z.shiftr z 29)) 4 =? 4)%Z = Z.testbit z 31.
Proof.
  intros z H. change (uwrap 8 (Z.shiftr z 29)) with ((Z.shiftr z 29) mod 2 ^ 8)%Z.
  rewrite Z.shiftr_div_pow2 by lia.
  assert (R : (0 <= z / 2 ^ 29 < 8)%Z) by (split; [apply Z.div_pos; lia|apply Z.div_lt_upper_bound; lia]).
  rewrite Z.mod_small by lia.
  replace (Z.testbit z 31) with (Z.testbit (z / 2 ^ 29) 2) by (rewrite <- Z.shiftr_div_pow2, Z.shiftr_spec by lia; reflexivity).
  assert (C : (z / 2 ^ 29 = 0 \/ z / 2 ^ 29 = 1 \/ z / 2 ^ 29 = 2 \/ z / 2 ^ 29 = 3 \/ z / 2 ^ 29 = 4 \/ z / 2 ^ 29 = 5 \/ z / 2 ^ 29 = 6 \/ z / 2 ^ 29 = 7)%Z) by lia.
  repeat (destruct C as [->|C]; [reflexivity|]). rewrite C. reflexivity.
Qed.

(** the message line in full: numbers are taken modulo 2^32 and 2^8 *)
Theorem parse_bo : forall id name dlc tx, (Z.of_N id < 2 ^ 63)%Z -> (Z.of_N dlc < 2 ^ 63)%Z ->
  not_in msg_delim name -> not_in msg_delim tx -> tx <> "" ->
  parse_message_line (bo_line id name dlc tx)
  = let i := (Z.of_N id mod 2 ^ 32)%Z in let l := (Z.of_N dlc mod 2 ^ 8)%Z in
    if Z.testbit i 29 || Z.testbit i 30 || (l =? 0)%Z || (64 <? l)%Z then None
    else Some {| g_name := name; g_dlc := l; g_id := (i mod 2 ^ 29)%Z; g_ext := if Z.testbit i 31 then 1 else 0;
                 g_cycle := 0; g_trans := if (1 <? String.length tx)%nat then [tx] else []; g_recs := []; g_sigs := []; g_hasphys := false; g_notempty := false;
                 g_roll := None; g_csm := None; g_csmmethod := ""; g_csmop := 0; g_comment := "" |}.
Proof.
  intros id name dlc tx I D N T L. unfold parse_message_line. rewrite split_bo; auto.
  cbn [List.length Nat.ltb Nat.leb nth]. rewrite atoll_dec, atoi_dec by auto. rewrite uwrap_swrap by lia.
  rewrite id_refused. change (uwrap 8 (Z.of_N dlc)) with (Z.of_N dlc mod 2 ^ 8)%Z.
  change (uwrap 32 (Z.of_N id)) with (Z.of_N id mod 2 ^ 32)%Z. cbv zeta.
  rewrite id_clear, id_ext by (apply Z.mod_pos_bound; lia).
  reflexivity.
Qed.

(** ** Transmitters *)

Lemma digit_node : forall c, is_digit c = true -> trans_delim c = false.
Proof. apply ascii_excl. vm_compute. reflexivity. Qed.
Lemma node_node : forall c, node_char c = true -> trans_delim c = false.
Proof. apply ascii_excl. vm_compute. reflexivity. Qed.

Lemma split_commas : forall l, l <> [] -> (forall x, In x l -> node_name x) ->
  split_runs_from trans_delim "" true (commas l ++ ";") = l.
Proof.
  induction l as [|x l IH]; intros E H; [congruence|].
  assert (X : node_name x) by (apply H; left; reflexivity). destruct X as [X1 X2].
  assert (NX : not_in trans_delim x) by (eapply not_in_of; [exact X2|apply node_node]).
  destruct l as [|y l].
  - cbn [commas]. change (x ++ ";") with (x ++ String ";" ""). rewrite runs_tok by auto. reflexivity.
  - cbn [commas]. rewrite !app_assoc. change (x ++ "," ++ ?r) with (x ++ String "," r).
    rewrite runs_tok by auto. change (rev_string "" ++ x) with x. f_equal. apply IH; [discriminate|].
    intros z Z. apply H. now right.
Qed.

Lemma split_tx : forall id nodes, nodes <> [] -> (forall x, In x nodes -> node_name x) ->
  split_runs trans_delim (tx_line id nodes) = "BO_TX_BU_" :: dec id :: nodes.
Proof.
  intros id nodes E H. unfold split_runs, tx_line.
  change ("BO_TX_BU_ " ++ ?x) with ("BO_TX_BU_" ++ String " " x). rewrite runs_tok; [|reflexivity|reflexivity|now left].
  change (rev_string "" ++ ?x) with x. f_equal.
  change (dec id ++ " : " ++ ?x) with (dec id ++ String " " (": " ++ x)).
  rewrite runs_tok; [|eapply not_in_of; [apply dec_digits|apply digit_node]|reflexivity|right; apply dec_nonempty].
  change (rev_string "" ++ ?x) with x. f_equal. rewrite runs_skip by reflexivity. now apply split_commas.
Qed.

Theorem parse_tx : forall id nodes, (Z.of_N id < 2 ^ 63)%Z -> nodes <> [] -> (forall x, In x nodes -> node_name x) ->
  (plain_id id <> 0)%N -> parse_multi_trans (tx_line id nodes) = (Z.of_N (plain_id id), nodes).
Proof.
  intros id nodes I E H P. unfold parse_multi_trans. rewrite split_tx by auto. cbn [nth].
  rewrite String.eqb_refl, andb_true_r. destruct nodes as [|x nodes]; [congruence|]. cbn [List.length Nat.leb].
  rewrite atoll_dec, id_clear by auto.
  assert (Q : (uwrap 32 (Z.of_N id) mod 2 ^ 29 = Z.of_N (plain_id id))%Z).
  { unfold plain_id, uwrap. rewrite N2Z.inj_mod. change (Z.of_N (2 ^ 29)) with (2 ^ 29)%Z.
    change (2 ^ 32)%Z with (2 ^ 29 * 8)%Z. rewrite Z.rem_mul_r by lia. rewrite Z.mul_comm, Z_mod_plus_full. now rewrite Z.mod_mod by lia. }
  rewrite Q. replace (Z.of_N (plain_id id) =? 0)%Z with false by lia. reflexivity.
Qed.

(** ** Cycle times *)

Lemma digit_attr : forall c, is_digit c = true -> attr_delim c = false.
Proof. apply ascii_excl. vm_compute. reflexivity. Qed.

Lemma split_cycle : forall id n, split_runs attr_delim (cycle_line id n) = ["BA_"; "GenMsgCycleTime"; "BO_"; dec id; dec n].
Proof.
  intros id n. unfold split_runs, cycle_line.
  change ("BA_ " ++ ?x) with ("BA_" ++ String " " x). rewrite runs_tok; [|reflexivity|reflexivity|now left]. change (rev_string "" ++ ?x) with x. f_equal.
  rewrite runs_skip by reflexivity.
  change ("GenMsgCycleTime" ++ dq ++ ?x) with ("GenMsgCycleTime" ++ String DQ x).
  rewrite runs_tok; [|reflexivity|reflexivity|right; discriminate]. change (rev_string "" ++ ?x) with x. f_equal.
  change (" BO_ " ++ ?x) with (" " ++ ("BO_" ++ String " " x)). rewrite runs_skip by reflexivity.
  rewrite runs_tok; [|reflexivity|reflexivity|right; discriminate]. change (rev_string "" ++ ?x) with x. f_equal.
  change (dec id ++ " " ++ ?x) with (dec id ++ String " " x).
  rewrite runs_tok; [|eapply not_in_of; [apply dec_digits|apply digit_attr]|reflexivity|right; apply dec_nonempty].
  change (rev_string "" ++ ?x) with x. f_equal. change (dec n ++ ";") with (dec n ++ String ";" "").
  rewrite runs_tok; [|eapply not_in_of; [apply dec_digits|apply digit_attr]|reflexivity|right; apply dec_nonempty]. reflexivity.
Qed.

Lemma ends_semi : forall s, last_char (s ++ ";") = Some ";"%char.
Proof. intros. now rewrite last_char_app. Qed.
Lemma cycle_last : forall id n, last_char (cycle_line id n) = Some ";"%char.
Proof. intros. unfold cycle_line. rewrite <- !app_assoc. apply ends_semi. Qed.

Lemma plain_wrap : forall id, clear_msgid (uwrap 32 (Z.of_N id)) = Z.of_N (plain_id id).
Proof.
  intros id. rewrite id_clear. unfold plain_id, uwrap. rewrite N2Z.inj_mod. change (Z.of_N (2 ^ 29)) with (2 ^ 29)%Z.
  change (2 ^ 32)%Z with (2 ^ 29 * 8)%Z. rewrite Z.rem_mul_r by lia. rewrite Z.mul_comm, Z_mod_plus_full. now rewrite Z.mod_mod by lia.
Qed.

Theorem parse_cycle : forall acc id n, (Z.of_N id < 2 ^ 63)%Z -> (Z.of_N n < 2 ^ 63)%Z ->
  parse_attribute_line acc (cycle_line id n) = ("", Some (Z.of_N (plain_id id), swrap 32 (Z.of_N n))).
Proof.
  intros acc id n I N. unfold parse_attribute_line.
  replace (String.eqb (cycle_line id n) "") with false by reflexivity.
  replace (collect "BA_ " "" acc (cycle_line id n)) with (cycle_line id n) by (unfold collect; reflexivity).
  unfold ends_entry. rewrite cycle_last. replace (String.eqb (cycle_line id n) "") with false by reflexivity.
  rewrite Ascii.eqb_refl. cbn [negb andb]. cbv zeta. rewrite split_cycle. cbn [nth List.length].
  rewrite atoll_dec, atoi_dec, plain_wrap by auto. reflexivity.
Qed.

(** ** Version *)

Lemma span_all : forall p a c r, all_chars p a = true -> p c = false -> span p (a ++ String c r) = (a, String c r).
Proof.
  induction a as [|x a IH]; intros c r H C.
  - cbn. now rewrite C.
  - cbn [all_chars] in H. apply andb_true_iff in H. destruct H as [A B]. rewrite app_cons. cbn [span]. rewrite A, IH by auto. reflexivity.
Qed.
Lemma dec_cons : forall n, exists c r, dec n = String c r /\ is_digit c = true /\ all_chars is_digit r = true.
Proof.
  intros n. pose proof (dec_digits n) as G. pose proof (dec_nonempty n) as E. destruct (dec n) as [|c r]; [congruence|].
  cbn [all_chars] in G. apply andb_true_iff in G. exists c, r. tauto.
Qed.

Lemma match_printed : forall a b, match_version (version_line a b) = Some ("VERSION", dec a, dec b).
Proof.
  intros a b. unfold match_version, version_line.
  change ("VERSION " ++ ?x) with ("VERSION" ++ String " " x). rewrite span_all by reflexivity.
  assert (X : drop_while is_space (String " " (dq ++ dec a ++ "." ++ dec b ++ dq)) = String DQ (dec a ++ "." ++ dec b ++ dq)) by reflexivity.
  rewrite X. clear X. cbn [opt_quote]. rewrite Ascii.eqb_refl.
  change (dec a ++ "." ++ ?x) with (dec a ++ String "." x). rewrite span_all by (auto using dec_digits).
  destruct (dec_cons b) as (c & r & B & C & R). rewrite B.
  change (String "." (String c r ++ dq)) with ("." ++ String c (r ++ dq)). rewrite span_all; [|reflexivity|now rewrite C].
  change (String c (r ++ dq)) with (String c r ++ String DQ ""). rewrite <- B. rewrite span_all by (auto using dec_digits).
  destruct (dec_cons a) as (c' & r' & A & _). rewrite A, B. reflexivity.
Qed.

Theorem find_printed : forall a b, (Z.of_N a < 2 ^ 64)%Z -> (Z.of_N b < 2 ^ 64)%Z ->
  find_version (version_line a b) = Ok (Some (Z.of_N a mod 2 ^ 32, Z.of_N b mod 2 ^ 32)%Z).
Proof.
  intros a b A B. unfold find_version. rewrite match_printed. unfold stoul32.
  pose proof (take_digits_dec a "" Logic.I) as TA. pose proof (take_digits_dec b "" Logic.I) as TB. rewrite app_nil_r in *.
  rewrite TA, TB. replace (Z.of_N a <? 2 ^ 64)%Z with true by lia. replace (Z.of_N b <? 2 ^ 64)%Z with true by lia. reflexivity.
Qed.

(** a line that does not begin with the word VERSION, in any case, gives no version *)
Fixpoint begins_ci (p s : string) : bool :=
  match p, s with
  | EmptyString, _ => true
  | String a p', String b s' => Ascii.eqb a (to_lower b) && begins_ci p' s'
  | _, _ => false
  end.

Lemma span_prefix : forall p s a r, span p s = (a, r) -> s = a ++ r.
Proof.
  induction s as [|c s IH]; intros a r H; cbn [span] in H.
  - injection H as <- <-. reflexivity.
  - destruct (p c).
    + destruct (span p s) as [x y] eqn:E. injection H as <- <-. rewrite (IH _ _ eq_refl). reflexivity.
    + injection H as <- <-. reflexivity.
Qed.
Lemma lower_begins : forall p w r, str_tolower w = p -> begins_ci p (w ++ r) = true.
Proof.
  induction p as [|c p IH]; intros w r H; [destruct (w ++ r); reflexivity|].
  destruct w as [|d w]; [discriminate|]. cbn [str_tolower map_string] in H. injection H as A B. rewrite app_cons. cbn [begins_ci].
  rewrite A, Ascii.eqb_refl. now apply IH.
Qed.
Theorem no_version : forall l x, begins_ci "version" l = false -> find_version l = Ok x -> x = None.
Proof.
  intros l x B H. unfold find_version in H. destruct (match_version l) as [[[w a] b]|] eqn:M; [|congruence].
  destruct (stoul32 a); try discriminate. cbn [bind] in H. destruct (stoul32 b); try discriminate. cbn [bind] in H.
  destruct (String.eqb_spec (str_tolower w) "version") as [E|E]; [|congruence].
  exfalso. unfold match_version in M. destruct (span is_alpha l) as [w' r] eqn:S. apply span_prefix in S.
  destruct (span is_digit _) as [q1 q2]. destruct (span _ q2) as [q3 q4]. destruct (span _ q4) as [q5 q6].
  destruct (_ && _); [|discriminate]. injection M as <- <- <-. rewrite S, lower_begins in B by auto. discriminate.
Qed.
