(** The per-byte pack expressions: text, syntax tree, value. *)

From Coq Require Import ZArith NArith List String Ascii Bool Lia ZifyBool.
From Verif Require Import Base Dbl CSyntax CSem CRun Types Formatter SigPrinter
  CodecSpec MsgSpec LexLemmas BitLemmas CSemLemmas Chunks UnpackProof PPProof BodyLemmas UnpackBody
  UnpackFun.
Import ListNotations.
Open Scope Z_scope.

(** ** The chunks that land in one byte *)

Definition part := (signal * chunk)%type.
Definition part_text (x : part) : string := ptext (s_name (fst x)) (snd x).

Definition sig_parts (i : Z) (sg : signal) : list part :=
  map (pair sg) (filter (fun ch => k_byte ch =? i) (sig_chunks sg)).
Definition byte_parts (sgs : list signal) (i : Z) : list part := flat_map (sig_parts i) sgs.

Definition pjoin_from (e : string) (l : list part) : string :=
  fold_left (fun e x => append_to_byte_line e (part_text x)) l e.
Definition pjoin (l : list part) : string := pjoin_from "" l.

Lemma set_nth_same : forall (tb : list string) n a, (n < List.length tb)%nat ->
  nth n (set_nth tb n a) ""%string = a.
Proof.
  intros. unfold set_nth. rewrite app_nth2; rewrite firstn_length_le by lia; [|lia].
  now rewrite Nat.sub_diag.
Qed.
Lemma set_nth_other : forall (tb : list string) n k a, (n < List.length tb)%nat -> k <> n ->
  nth k (set_nth tb n a) ""%string = nth k tb ""%string.
Proof.
  intros tb n k a L N. unfold set_nth.
  destruct (Nat.lt_ge_cases k n).
  - rewrite app_nth1 by (rewrite firstn_length_le; lia).
    rewrite <- (firstn_skipn n tb) at 2. rewrite app_nth1 by (rewrite firstn_length_le; lia).
    reflexivity.
  - rewrite app_nth2 by (rewrite firstn_length_le; lia). rewrite firstn_length_le by lia.
    destruct (k - n)%nat as [|j] eqn:E; [lia|]. cbn [nth].
    rewrite <- (firstn_skipn (S n) tb) at 2. rewrite app_nth2 by (rewrite firstn_length_le; lia).
    rewrite firstn_length_le by lia. f_equal. lia.
Qed.

Lemma put_chunks_nth : forall sg l tb i, 0 <= i < Z.of_nat (List.length tb) ->
  (forall c, In c l -> 0 <= k_byte c < Z.of_nat (List.length tb)) ->
  nth (Z.to_nat i) (put_chunks (s_name sg) tb l) ""%string
  = pjoin_from (nth (Z.to_nat i) tb ""%string)
      (map (pair sg) (filter (fun ch => k_byte ch =? i) l)).
Proof.
  induction l as [|c l IH]; intros tb i I B; [reflexivity|].
  cbn [put_chunks fold_left filter].
  pose proof (B c (or_introl eq_refl)) as BC.
  assert (LP : List.length (put_chunk (s_name sg) tb c) = List.length tb)
    by (apply put_chunk_length; auto).
  fold (put_chunks (s_name sg) (put_chunk (s_name sg) tb c) l).
  rewrite IH; rewrite ?LP; auto; [|intros; apply B; now right].
  destruct (Z.eqb_spec (k_byte c) i) as [E|E].
  - subst i. cbn [map pjoin_from fold_left]. unfold pjoin_from. f_equal.
    unfold put_chunk. rewrite set_nth_same by lia. reflexivity.
  - f_equal. unfold put_chunk. rewrite set_nth_other by lia. reflexivity.
Qed.

Lemma put_sigs_nth : forall sgs tb i, 0 <= i < Z.of_nat (List.length tb) ->
  (forall sg c, In sg sgs -> In c (sig_chunks sg) -> 0 <= k_byte c < Z.of_nat (List.length tb)) ->
  nth (Z.to_nat i) (put_sigs sgs tb) ""%string
  = pjoin_from (nth (Z.to_nat i) tb ""%string) (byte_parts sgs i).
Proof.
  induction sgs as [|sg r IH]; intros tb i I B; [reflexivity|].
  cbn [put_sigs fold_left byte_parts flat_map].
  fold (put_sigs r (put_chunks (s_name sg) tb (sig_chunks sg))).
  assert (LP : List.length (put_chunks (s_name sg) tb (sig_chunks sg)) = List.length tb).
  { apply put_chunks_length. intros c C. eapply B; eauto. now left. }
  rewrite IH; rewrite ?LP; auto; [|intros; eapply B; eauto; now right].
  rewrite put_chunks_nth; auto; [|intros c C; eapply B; eauto; now left].
  unfold pjoin_from. rewrite fold_left_app. reflexivity.
Qed.

Lemma put_sigs_length : forall sgs tb,
  (forall sg c, In sg sgs -> In c (sig_chunks sg) -> 0 <= k_byte c < Z.of_nat (List.length tb)) ->
  List.length (put_sigs sgs tb) = List.length tb.
Proof.
  induction sgs as [|sg r IH]; intros tb B; [reflexivity|].
  cbn [put_sigs fold_left]. fold (put_sigs r (put_chunks (s_name sg) tb (sig_chunks sg))).
  assert (LP : List.length (put_chunks (s_name sg) tb (sig_chunks sg)) = List.length tb).
  { apply put_chunks_length. intros c C. eapply B; eauto. now left. }
  rewrite IH; rewrite ?LP; auto. intros; eapply B; eauto; now right.
Qed.

(** ** The joined text *)

Fixpoint pmore (l : list part) : string :=
  match l with
  | [] => ""
  | x :: r => (" | " ++ part_text x ++ pmore r)%string
  end.

Lemma part_text_nonempty : forall x, exists c r, part_text x = String c r.
Proof.
  intros [sg ch]. unfold part_text, ptext. cbn [fst snd].
  destruct (k_pos ch =? 0); [destruct (k_lo ch =? 0)|]; do 2 eexists; reflexivity.
Qed.

Lemma pjoin_from_more : forall l c e, pjoin_from (String c e) l = (String c e ++ pmore l)%string.
Proof.
  induction l as [|x l IH]; intros c e.
  - cbn [pjoin_from fold_left pmore]. now rewrite app_nil_r.
  - cbn [pjoin_from fold_left pmore append_to_byte_line].
    change (fold_left _ l ?z) with (pjoin_from z l).
    change (String c e ++ " | " ++ part_text x)%string
      with (String c (e ++ " | " ++ part_text x)%string).
    rewrite IH. rewrite <- !app_cons, !app_assoc. reflexivity.
Qed.
Lemma pjoin_cons : forall x l, pjoin (x :: l) = (part_text x ++ pmore l)%string.
Proof.
  intros. unfold pjoin. cbn [pjoin_from fold_left append_to_byte_line].
  change (fold_left _ l ?z) with (pjoin_from z l).
  destruct (part_text_nonempty x) as (c & r & E). rewrite E. apply pjoin_from_more.
Qed.

Lemma pmore_app : forall a b, pmore (a ++ b) = (pmore a ++ pmore b)%string.
Proof. induction a; intros; cbn [pmore List.app]; auto. rewrite IHa, !app_assoc. reflexivity. Qed.

(** ** Tokens and syntax trees *)

Definition ftoks (sg : signal) : list tok := [TId "_m"; TP PArrow; TId (s_name sg)].

Definition ptoks (x : part) : list tok :=
  let '(sg, c) := x in
  if k_pos c =? 0 then
    if k_lo c =? 0 then ([TP PLpar] ++ ftoks sg ++ [TP (PBin OAnd)] ++ mtoks (k_w c) ++ [TP PRpar])%list
    else ([TP PLpar; TP PLpar] ++ ftoks sg ++ [TP (PBin OAnd)] ++ mtoks (k_w c)
            ++ [TP PRpar; TP (PBin OShl); TInt U32 (k_lo c); TP PRpar])%list
  else ([TP PLpar; TP PLpar] ++ ftoks sg ++ [TP (PBin OShr); TInt U32 (k_pos c); TP PRpar;
          TP (PBin OAnd)] ++ mtoks (k_w c) ++ [TP PRpar])%list.

Definition pexpr (x : part) : expr :=
  let '(sg, c) := x in
  if k_pos c =? 0 then
    if k_lo c =? 0 then EBin OAnd (fexp (s_name sg)) (EInt U32 (mask (k_w c)))
    else EBin OShl (EBin OAnd (fexp (s_name sg)) (EInt U32 (mask (k_w c)))) (EInt U32 (k_lo c))
  else EBin OAnd (EBin OShr (fexp (s_name sg)) (EInt U32 (k_pos c))) (EInt U32 (mask (k_w c))).

Definition part_ok (x : part) : Prop := good (snd x) /\ is_ident (s_name (fst x)) = true.

Lemma lex_part : forall x r, part_ok x ->
  lex_from LIdle (part_text x ++ r) = (ptoks x ++ lex_from LIdle r)%list.
Proof.
  intros [sg c] r ((B & L & W & LW & P & PW & PL) & ID). cbn [fst snd] in *.
  unfold part_text, ptext, ptoks, ftoks, mtoks. cbn [fst snd].
  destruct (Z.eqb_spec (k_pos c) 0) as [P0|P0]; [destruct (Z.eqb_spec (k_lo c) 0) as [L0|L0]|].
  - rewrite !app_assoc. lexrun ltac:(first [rewrite lex_ident' by auto | rewrite lex_msk by lia]).
    reflexivity.
  - rewrite !app_assoc. lexrun ltac:(first [rewrite lex_ident' by auto | rewrite lex_msk by lia
      | rewrite lex_numU by (auto; lia)]).
    reflexivity.
  - rewrite !app_assoc. lexrun ltac:(first [rewrite lex_ident' by auto | rewrite lex_msk by lia
      | rewrite lex_numU by (auto; lia)]).
    reflexivity.
Qed.

Lemma ptoks_unit : forall x k, erun (k, Need) (ptoks x) = Some (k, Have (pexpr x)).
Proof.
  intros [sg c] k. unfold ptoks, pexpr, ftoks, mtoks, fexp.
  destruct (k_pos c =? 0); [destruct (k_lo c =? 0)|]; reflexivity.
Qed.
Lemma ptoks_no_semi : forall x, no_semi (ptoks x) = true.
Proof.
  intros [sg c]. unfold ptoks, ftoks, mtoks.
  destruct (k_pos c =? 0); [destruct (k_lo c =? 0)|]; reflexivity.
Qed.

Fixpoint pmore_toks (l : list part) : list tok :=
  match l with
  | [] => []
  | x :: r => (TP (PBin OOr) :: ptoks x ++ pmore_toks r)%list
  end.
Definition ptoks_all (l : list part) : list tok :=
  match l with
  | [] => []
  | x :: r => (ptoks x ++ pmore_toks r)%list
  end.
Definition por_expr (e : expr) (l : list part) : expr :=
  fold_left (fun a x => EBin OOr a (pexpr x)) l e.
Definition pexpr_all (l : list part) : expr :=
  match l with
  | [] => EInt I32 0
  | x :: r => por_expr (pexpr x) r
  end.

Lemma lex_pmore : forall l r, (forall x, In x l -> part_ok x) ->
  lex_from LIdle (pmore l ++ r) = (pmore_toks l ++ lex_from LIdle r)%list.
Proof.
  induction l; intros r G; [reflexivity|].
  cbn [pmore pmore_toks]. rewrite !app_assoc.
  rewrite (lex_split " | " LIdle). change (lend LIdle " | ") with LIdle.
  change (lemit LIdle " | ") with [TP (PBin OOr)]. cbn [List.app].
  rewrite lex_part by (apply G; now left).
  rewrite IHl by (intros; apply G; now right).
  now rewrite <- List.app_assoc.
Qed.
Lemma lex_pjoin : forall l r, (forall x, In x l -> part_ok x) ->
  lex_from LIdle (pjoin l ++ r) = (ptoks_all l ++ lex_from LIdle r)%list.
Proof.
  intros [|x l] r G; [reflexivity|].
  rewrite pjoin_cons. cbn [ptoks_all]. rewrite app_assoc.
  rewrite lex_part by (apply G; now left).
  rewrite lex_pmore by (intros; apply G; now right).
  now rewrite List.app_assoc.
Qed.
Lemma pmore_no_semi : forall l, no_semi (pmore_toks l) = true.
Proof.
  induction l; auto. cbn [pmore_toks]. change (TP (PBin OOr) :: ?z) with ([TP (PBin OOr)] ++ z)%list.
  rewrite !no_semi_app, ptoks_no_semi, IHl. reflexivity.
Qed.
Lemma ptoks_all_no_semi : forall l, no_semi (ptoks_all l) = true.
Proof.
  intros [|x l]; auto. cbn [ptoks_all]. now rewrite no_semi_app, ptoks_no_semi, pmore_no_semi.
Qed.
Lemma pmore_pending : forall l k a e,
  erun (FBin OOr a :: FParen :: k, Have e) (pmore_toks l ++ [TP PRpar])
  = Some (k, Have (por_expr (EBin OOr a e) l)).
Proof.
  induction l; intros k b e; [reflexivity|].
  cbn [pmore_toks List.app]. cbn [erun estep]. cbn [rprec prec reduce Nat.leb].
  rewrite <- List.app_assoc, erun_app, ptoks_unit. rewrite IHl. reflexivity.
Qed.
Lemma pall_unit : forall l k, l <> [] ->
  erun (k, Need) (TP PLpar :: ptoks_all l ++ [TP PRpar]) = Some (k, Have (pexpr_all l)).
Proof.
  intros [|x l] k N; [congruence|]. cbn [ptoks_all].
  cbn [erun estep]. rewrite <- List.app_assoc, erun_app, ptoks_unit.
  destruct l as [|y l]; [reflexivity|].
  cbn [pmore_toks List.app]. cbn [erun estep]. cbn [rprec prec reduce Nat.leb].
  rewrite <- List.app_assoc, erun_app, ptoks_unit. rewrite pmore_pending. reflexivity.
Qed.

(** ** Values *)

(** the byte contributed by a chunk of a signal of value [v] *)
Definition part_val (V : signal -> Z) (x : part) : Z :=
  Z.shiftl ((Z.shiftr (V (fst x)) (k_pos (snd x))) mod 2 ^ k_w (snd x)) (k_lo (snd x)).

Definition bigt (t : cty) : Prop := t = U32 \/ t = I64 \/ t = U64.

Lemma bigt_fits : forall t z, bigt t -> 0 <= z < 2 ^ 32 -> fits t z = true.
Proof.
  intros t z H R. unfold fits, ty_min, ty_max. change (2 ^ 32) with 4294967296 in R.
  destruct H as [->|[->| ->]]; cbn [is_signed width];
    change (2 ^ (64 - 1)) with 9223372036854775808; change (2 ^ 32) with 4294967296;
    change (2 ^ 64) with 18446744073709551616; lia.
Qed.

Lemma usual_bigt : forall t, bigt (usual t U32).
Proof. unfold bigt. destruct t; cbn; auto. Qed.
Lemma usual_bigt2 : forall t u, bigt t -> bigt u -> bigt (usual t u).
Proof. unfold bigt. intros t u [->|[->| ->]] [->|[->| ->]]; cbn; auto. Qed.

Lemma pow8 : forall w, 0 <= w <= 8 -> 1 <= 2 ^ w <= 256.
Proof.
  intros. pose proof (pow2_pos w ltac:(lia)).
  assert (2 ^ w <= 2 ^ 8) by (apply Z.pow_le_mono_r; lia). change (2 ^ 8) with 256 in *. lia.
Qed.

Lemma and_mask : forall t v w, 1 <= w <= 8 ->
  bin_val OAnd (VI t v) (VI U32 (mask w)) = Ok (VI (usual t U32) (v mod 2 ^ w)).
Proof.
  intros t v w W. unfold bin_val, int_op. pose proof (pow8 w ltac:(lia)).
  rewrite (conv_id _ (mask w)) by (apply bigt_fits; [apply usual_bigt|unfold mask; change (2^32) with 4294967296; lia]).
  unfold mask. rewrite land_mask by lia. rewrite conv_mod; auto.
  pose proof (width_pos (usual t U32)). lia.
Qed.

Lemma part_val_range : forall V x, good (snd x) -> 0 <= part_val V x < 256.
Proof.
  intros V [sg ch] (B & L & W & LW & P & PW & PL). cbn [snd] in *. unfold part_val. cbn [fst snd].
  pose proof (Z.mod_pos_bound (Z.shiftr (V sg) (k_pos ch)) (2 ^ k_w ch) (pow2_pos (k_w ch) ltac:(lia))) as H.
  set (z := _ mod _) in *. rewrite Z.shiftl_mul_pow2 by lia.
  pose proof (pow2_pos (k_lo ch) ltac:(lia)). split; [nia|].
  apply Z.lt_le_trans with (2 ^ k_w ch * 2 ^ k_lo ch); [nia|].
  rewrite <- Z.pow_add_r by lia. change 256 with (2 ^ 8). apply Z.pow_le_mono_r; lia.
Qed.

(** the members hold the values [V] *)
Definition holds (bits : bool) (m : mem) (V : signal -> Z) (sg : signal) : Prop :=
  m_scal m (fpath (s_name sg)) = Some (field_ty bits sg, stored (field_ty bits sg) (V sg)).

Lemma eval_part : forall n c m bits V x, holds bits m V (fst x) -> good (snd x) ->
  k_pos (snd x) < s_len (fst x) -> raw_type_ok (fst x) ->
  exists t, eval n c m [] (pexpr x) = Ok (VI t (part_val V x)) /\ bigt t.
Proof.
  intros n c m bits V [sg ch] H (B & L & W & LW & P & PW & PL) KL (RS & RW). cbn [fst snd] in *.
  pose proof (part_val_range V (sg, ch)) as PR. cbn [snd] in PR.
  specialize (PR ltac:(unfold good; intuition lia)).
  unfold holds in H. rewrite stored_elt in H. set (t := elt bits sg) in *.
  pose proof (eval_fexp n c m [] _ _ _ H) as EV.
  unfold pexpr, part_val in *. cbn [fst snd] in *.
  destruct (Z.eqb_spec (k_pos ch) 0) as [P0|P0]; [destruct (Z.eqb_spec (k_lo ch) 0) as [L0|L0]|].
  - rewrite eval_bin by reflexivity. rewrite EV, eval_int. cbn [bind].
    rewrite and_mask by lia. rewrite P0, L0, Z.shiftr_0_r, Z.shiftl_0_r.
    exists (usual t U32). split; auto. apply usual_bigt.
  - rewrite !eval_bin by reflexivity. rewrite EV, !eval_int. cbn [bind].
    rewrite and_mask by lia. cbn [bind]. rewrite P0, Z.shiftr_0_r in *.
    exists (usual t U32). split; [|apply usual_bigt].
    unfold bin_val, int_op, shift_op.
    assert (PT : promote (usual t U32) = usual t U32) by (destruct t; reflexivity). rewrite PT.
    pose proof (usual_bigt t) as BT. set (u := usual t U32) in *.
    assert (WU : 32 <= width u) by (destruct BT as [->|[->| ->]]; cbn; lia).
    replace ((k_lo ch <? 0) || (width u <=? k_lo ch)) with false by lia.
    assert (F : fits u (Z.shiftl (V sg mod 2 ^ k_w ch) (k_lo ch)) = true)
      by (apply bigt_fits; auto; change (2 ^ 32) with 4294967296; lia).
    rewrite F, (conv_id _ _ F).
    pose proof (Z.mod_pos_bound (V sg) (2 ^ k_w ch) (pow2_pos (k_w ch) ltac:(lia))).
    replace (V sg mod 2 ^ k_w ch <? 0) with false by lia. cbn [orb negb].
    destruct (is_signed u); reflexivity.
  - rewrite !eval_bin by reflexivity. rewrite EV, !eval_int. cbn [bind].
    assert (WT : k_pos ch < width (promote t)).
    { subst t. unfold elt. destruct (bits && (s_len sg <? 8)) eqn:E.
      - assert (s_len sg < 8) by lia. cbn. lia.
      - assert (width (s_typero sg) <= width (promote (s_typero sg)))
          by (destruct (s_typero sg); cbn; lia). lia. }
    unfold bin_val at 1, int_op, shift_op.
    replace ((k_pos ch <? 0) || (width (promote t) <=? k_pos ch)) with false by lia. cbn [bind].
    rewrite and_mask by lia. rewrite (PL ltac:(lia)), Z.shiftl_0_r.
    exists (usual (promote t) U32). split; auto. apply usual_bigt.
Qed.

Definition por (V : signal -> Z) (z : Z) (l : list part) : Z :=
  fold_left (fun a x => Z.lor a (part_val V x)) l z.

Lemma lor_byte : forall a b, 0 <= a < 256 -> 0 <= b < 256 -> 0 <= Z.lor a b < 256.
Proof. intros. change 256 with (2 ^ 8) in *. apply lor_range; lia. Qed.

Lemma por_range : forall V l z, 0 <= z < 256 -> (forall x, In x l -> good (snd x)) ->
  0 <= por V z l < 256.
Proof.
  induction l as [|x l IH]; intros z R G; [exact R|]. cbn [por fold_left].
  apply IH; [|intros; apply G; now right]. apply lor_byte; auto. apply part_val_range. apply G. now left.
Qed.

Lemma bin_or_big : forall t a u b, bigt t -> bigt u -> 0 <= a < 256 -> 0 <= b < 256 ->
  bin_val OOr (VI t a) (VI u b) = Ok (VI (usual t u) (Z.lor a b)).
Proof.
  intros t a u b T U A B. unfold bin_val, int_op.
  rewrite !conv_id by (apply bigt_fits; [now apply usual_bigt2|change (2 ^ 32) with 4294967296; lia]).
  reflexivity.
Qed.

Lemma eval_por : forall n c m bits V l e t z,
  (forall x, In x l -> holds bits m V (fst x) /\ good (snd x) /\
             k_pos (snd x) < s_len (fst x) /\ raw_type_ok (fst x)) ->
  eval n c m [] e = Ok (VI t z) -> bigt t -> 0 <= z < 256 ->
  exists w, eval n c m [] (por_expr e l) = Ok (VI w (por V z l)) /\ bigt w.
Proof.
  induction l as [|x l IH]; intros e t z G E BT R.
  - exists t. auto.
  - cbn [por_expr por fold_left].
    destruct (G x (or_introl eq_refl)) as (G1 & G2 & G3 & G4).
    destruct (eval_part n c m bits V x G1 G2 G3 G4) as (u & EX & BU).
    pose proof (part_val_range V x G2) as RX.
    apply (IH (EBin OOr e (pexpr x)) (usual t u) (Z.lor z (part_val V x))); auto.
    + intros. apply G. now right.
    + rewrite eval_bin by reflexivity. rewrite E, EX. cbn [bind]. apply bin_or_big; auto.
    + now apply usual_bigt2.
    + now apply lor_byte.
Qed.

Definition parts_val (V : signal -> Z) (l : list part) : Z := por V 0 l.

Lemma eval_pall : forall n c m bits V l, l <> [] ->
  (forall x, In x l -> holds bits m V (fst x) /\ good (snd x) /\
             k_pos (snd x) < s_len (fst x) /\ raw_type_ok (fst x)) ->
  exists w, eval n c m [] (pexpr_all l) = Ok (VI w (parts_val V l)) /\ bigt w.
Proof.
  intros n c m bits V [|x l] N G; [congruence|].
  destruct (G x (or_introl eq_refl)) as (G1 & G2 & G3 & G4).
  destruct (eval_part n c m bits V x G1 G2 G3 G4) as (u & EX & BU).
  unfold parts_val. cbn [pexpr_all por fold_left]. rewrite Z.lor_0_l.
  apply eval_por with (bits := bits) (t := u); auto.
  - intros. apply G. now right.
  - now apply part_val_range.
Qed.

(** ** Bits *)

Lemma part_val_testbit : forall V x j, good (snd x) -> 0 <= j ->
  Z.testbit (part_val V x) j
  = (k_lo (snd x) <=? j) && (j <? k_lo (snd x) + k_w (snd x))
    && Z.testbit (V (fst x)) (k_pos (snd x) + (j - k_lo (snd x))).
Proof.
  intros V [sg ch] j (B & L & W & LW & P & PW & PL) J. cbn [fst snd] in *.
  unfold part_val. cbn [fst snd]. rewrite Z.shiftl_spec by lia.
  destruct (Z.leb_spec (k_lo ch) j).
  - rewrite mod_testbit by lia. rewrite Z.shiftr_spec by lia. cbn [andb].
    rewrite Z.add_comm. f_equal. lia.
  - now rewrite Z.testbit_neg_r by lia.
Qed.

Lemma por_testbit : forall V l z k,
  Z.testbit (por V z l) k = Z.testbit z k || existsb (fun x => Z.testbit (part_val V x) k) l.
Proof.
  induction l; intros z k; cbn [por fold_left existsb].
  - now rewrite orb_false_r.
  - fold (por V (Z.lor z (part_val V a)) l). rewrite IHl, Z.lor_spec, orb_assoc. reflexivity.
Qed.

Ltac Zify.zify_post_hook ::= Z.div_mod_to_equations.

(** bit [j] of byte [i] is the OR of the value bits that the layout puts there *)
Lemma byte_bit : forall V dlc sgs i j, dlc <= 64 -> 0 <= i -> 0 <= j < 8 ->
  (forall sg, In sg sgs -> sig_ok dlc sg) ->
  (Z.testbit (parts_val V (byte_parts sgs i)) j = true <->
   exists sg k, In sg sgs /\ 0 <= k < s_len sg /\
     sig_pos (s_order sg) (s_start sg) (s_len sg) k = 8 * i + j /\ Z.testbit (V sg) k = true).
Proof.
  intros V dlc sgs i j D I J OK. unfold parts_val. rewrite por_testbit, Z.bits_0. cbn [orb].
  rewrite existsb_exists. split.
  - intros ([sg ch] & IN & T). unfold byte_parts in IN. apply in_flat_map in IN.
    destruct IN as (sg' & S & IN). unfold sig_parts in IN. apply in_map_iff in IN.
    destruct IN as (ch' & E & F). injection E as -> ->. apply filter_In in F. destruct F as [F KB].
    pose proof (OK sg S) as O.
    destruct (sig_chunks_good dlc sg O D ch F) as [G B].
    rewrite part_val_testbit in T by (auto; lia). cbn [fst snd] in T.
    apply andb_true_iff in T. destruct T as [T1 T].
    pose proof (ok_len _ _ O) as LEN.
    destruct (chunks_spec (s_order sg) (s_start sg) (s_len sg) ch ltac:(lia) (ok_start _ _ O) F)
      as (A1 & A2 & A3 & A4 & A5 & A6 & A7).
    exists sg, (k_pos ch + (j - k_lo ch)). split; [auto|].
    assert (K : 0 <= j - k_lo ch < k_w ch) by lia.
    split; [lia|]. split; [|exact T].
    rewrite (A7 _ K). lia.
  - intros (sg & k & S & K & PO & T).
    pose proof (OK sg S) as O. pose proof (ok_len _ _ O) as LEN.
    destruct (chunks_cover (s_order sg) (s_start sg) (s_len sg) k (ok_start _ _ O) K) as (ch & C & R).
    destruct (sig_chunks_good dlc sg O D ch C) as [G B].
    destruct (chunks_spec (s_order sg) (s_start sg) (s_len sg) ch ltac:(lia) (ok_start _ _ O) C)
      as (A1 & A2 & A3 & A4 & A5 & A6 & A7).
    specialize (A7 (k - k_pos ch) ltac:(lia)). replace (k_pos ch + (k - k_pos ch)) with k in A7 by lia.
    assert (KB : k_byte ch = i /\ k_lo ch + (k - k_pos ch) = j) by lia.
    exists (sg, ch). split.
    + unfold byte_parts. apply in_flat_map. exists sg. split; auto. unfold sig_parts.
      apply in_map. apply filter_In. split; auto. lia.
    + rewrite part_val_testbit by (auto; lia). cbn [fst snd].
      replace (k_pos ch + (j - k_lo ch)) with k by lia. rewrite T. lia.
Qed.

(** ** Length of the texts *)

(** upper bound for the text of some parts *)
Fixpoint load (l : list part) : nat :=
  match l with [] => 0 | x :: r => String.length (s_name (fst x)) + 63 + load r end.

Lemma part_len : forall x, good (snd x) ->
  (String.length (part_text x) <= String.length (s_name (fst x)) + 60)%nat.
Proof.
  intros [sg c] (B & Lo & W & LW & P & PW & PL). cbn [fst snd] in *. unfold part_text, ptext. cbn [fst snd].
  destruct (k_pos c =? 0); [destruct (k_lo c =? 0)|]; len_tac.
Qed.
Lemma pmore_len : forall l, (forall x, In x l -> good (snd x)) ->
  (String.length (pmore l) <= load l)%nat.
Proof.
  induction l as [|x l IH]; intros G; [reflexivity|]. cbn [pmore load].
  rewrite !app_len. specialize (IH (fun d D => G d (or_intror D))).
  pose proof (part_len x (G x (or_introl eq_refl))). cbn [String.length]. lia.
Qed.
Lemma pjoin_len : forall l, (forall x, In x l -> good (snd x)) ->
  (String.length (pjoin l) <= load l)%nat.
Proof.
  intros [|x l] G; [simpl; lia|]. rewrite pjoin_cons, app_len. cbn [load].
  pose proof (part_len x (G x (or_introl eq_refl))).
  pose proof (pmore_len l (fun d D => G d (or_intror D))). lia.
Qed.
Lemma pjoin_long : forall x l, (2 <= String.length (pjoin (x :: l)))%nat.
Proof.
  intros [sg c] l. rewrite pjoin_cons, app_len. unfold part_text, ptext. cbn [fst snd].
  destruct (k_pos c =? 0); [destruct (k_lo c =? 0)|]; rewrite !app_len; cbn [String.length]; lia.
Qed.

Lemma no_nl_part : forall x, is_ident (s_name (fst x)) = true -> no_nl (part_text x) = true.
Proof.
  intros [sg c] H. cbn [fst] in H. unfold part_text, ptext. cbn [fst snd].
  destruct (k_pos c =? 0); [destruct (k_lo c =? 0)|]; nonl; rewrite (no_nl_ident' _ H); reflexivity.
Qed.
Lemma no_nl_pmore : forall l, (forall x, In x l -> is_ident (s_name (fst x)) = true) -> no_nl (pmore l) = true.
Proof.
  induction l; intros G; auto. cbn [pmore]. rewrite !no_nl_app, no_nl_part, IHl; auto.
  - intros. apply G. now right.
  - apply G. now left.
Qed.
Lemma no_nl_pjoin : forall l, (forall x, In x l -> is_ident (s_name (fst x)) = true) -> no_nl (pjoin l) = true.
Proof.
  intros [|x l] G; auto. rewrite pjoin_cons, no_nl_app, no_nl_part, no_nl_pmore; auto.
  - intros. apply G. now right.
  - apply G. now left.
Qed.
