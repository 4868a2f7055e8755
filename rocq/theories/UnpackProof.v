(** The unpack expression of a signal: its tokens, its syntax tree and its value. *)

From Coq Require Import ZArith NArith List String Ascii Bool Lia ZifyBool.
From Verif Require Import Base CSyntax CSem Types Formatter SigPrinter CodecSpec LexLemmas
  BitLemmas CSemLemmas Chunks.
Import ListNotations.
Open Scope Z_scope.

(** ** Tokens *)

(** splits off a literal prefix of the text being lexed *)
Ltac lexlit :=
  match goal with
  | |- context [lex_from ?s (?t ++ ?r)%string] =>
      rewrite (lex_split t s r);
      let a := eval vm_compute in (lemit s t) in
      let b := eval vm_compute in (lend s t) in
      change (lemit s t) with a; change (lend s t) with b; cbn [List.app]
  end.
Ltac lexpunct :=
  match goal with
  | |- context [lex_from (LPunct ?c) ?r] =>
      let q := eval vm_compute in (punct1 c) in
      match q with Some ?q => rewrite (lex_solo c q r eq_refl eq_refl) end
  end.

Definition mask (w : Z) : Z := 2 ^ w - 1.

Definition bexpr (b : Z) : expr := EIdx (EId "_d") (EInt I32 b).
Definition btoks (b : Z) : list tok := [TId "_d"; TP PLbr; TInt I32 b; TP PRbr].
Definition mtoks (w : Z) : list tok := [TP PLpar; TInt U32 (mask w); TP PRpar].

Definition utoks (c : chunk) : list tok :=
  if k_pos c =? 0 then
    if k_lo c =? 0 then
      ([TP PLpar] ++ btoks (k_byte c) ++ [TP (PBin OAnd)] ++ mtoks (k_w c) ++ [TP PRpar])%list
    else
      ([TP PLpar; TP PLpar] ++ btoks (k_byte c) ++ [TP (PBin OShr); TInt U32 (k_lo c); TP PRpar]
         ++ [TP (PBin OAnd)] ++ mtoks (k_w c) ++ [TP PRpar])%list
  else
    ([TP PLpar] ++ (if k_pos c >? 31 then [TP PLpar; TId "uint64_t"; TP PRpar] else [])
       ++ [TP PLpar] ++ btoks (k_byte c) ++ [TP (PBin OAnd)] ++ mtoks (k_w c) ++ [TP PRpar]
       ++ [TP (PBin OShl); TInt U32 (k_pos c); TP PRpar])%list.

Definition uexpr (c : chunk) : expr :=
  if k_pos c =? 0 then
    if k_lo c =? 0 then EBin OAnd (bexpr (k_byte c)) (EInt U32 (mask (k_w c)))
    else EBin OAnd (EBin OShr (bexpr (k_byte c)) (EInt U32 (k_lo c))) (EInt U32 (mask (k_w c)))
  else
    let b := EBin OAnd (bexpr (k_byte c)) (EInt U32 (mask (k_w c))) in
    EBin OShl (if k_pos c >? 31 then EUn (UCast "uint64_t") b else b) (EInt U32 (k_pos c)).

(** the text does not continue a word *)
Definition ends_word (r : string) : bool :=
  match r with EmptyString => true | String c _ => word_ends c end.

Lemma lex_num : forall z c t r, 0 <= z < 1000 -> word_ends c = true ->
  lex_from LIdle (num z ++ (String c t ++ r)) = TInt I32 z :: lex_from LIdle (String c t ++ r).
Proof.
  intros. unfold num. change (String c t ++ r)%string with (String c (t ++ r)).
  rewrite lex_dec; auto.
  - now rewrite Z2N.id by lia.
  - change (2 ^ 31)%N with 2147483648%N. lia.
Qed.

Lemma lex_numU : forall z c t r, 0 <= z < 1000 -> word_ends c = true ->
  lex_from LIdle (num z ++ (String "U" (String c t) ++ r))
  = TInt U32 z :: lex_from LIdle (String c t ++ r).
Proof.
  intros. unfold num.
  change (String "U" (String c t) ++ r)%string with (String "U" (String c (t ++ r))).
  rewrite lex_decU; auto.
  - now rewrite Z2N.id by lia.
  - change (2 ^ 32)%N with 4294967296%N. lia.
Qed.

Lemma width_cases : forall w, 1 <= w <= 8 ->
  w = 1 \/ w = 2 \/ w = 3 \/ w = 4 \/ w = 5 \/ w = 6 \/ w = 7 \/ w = 8.
Proof. lia. Qed.

Lemma lex_msk : forall w t r, 1 <= w <= 8 ->
  lex_from LIdle (msk w ++ (String ")" t ++ r))
  = TInt U32 (mask w) :: TP PRpar :: lex_from LIdle (t ++ r).
Proof.
  intros w t r H.
  assert (E : lex_from LIdle (String ")" t ++ r) = TP PRpar :: lex_from LIdle (t ++ r))
    by (apply lex_idle_solo; reflexivity).
  rewrite <- E.
  change (String ")" t ++ r)%string with (String ")" (t ++ r)).
  destruct (width_cases w H) as [W|[W|[W|[W|[W|[W|[W|W]]]]]]]; subst w;
    (match goal with |- lex_from LIdle (msk ?k ++ _) = _ =>
       let u := eval vm_compute in (msk k) in change (msk k) with u;
       rewrite (lex_word u ")" (t ++ r)); [|discriminate|reflexivity|reflexivity];
       let a := eval vm_compute in (word u) in change (word u) with a;
       reflexivity end).
Qed.

(** what the chunks of a signal satisfy *)
Definition good (c : chunk) : Prop :=
  0 <= k_byte c < 64 /\ 0 <= k_lo c /\ 0 < k_w c /\ k_lo c + k_w c <= 8 /\ 0 <= k_pos c /\
  k_pos c + k_w c <= 64 /\ (0 < k_pos c -> k_lo c = 0).

Lemma lex_utext : forall c r, good c ->
  lex_from LIdle (utext c ++ r) = (utoks c ++ lex_from LIdle r)%list.
Proof.
  intros c r (B & L & W & LW & P & PW & PL).
  unfold utext, utoks, btoks, mtoks.
  destruct (Z.eqb_spec (k_pos c) 0) as [P0|P0].
  - destruct (Z.eqb_spec (k_lo c) 0) as [L0|L0].
    + rewrite !app_assoc. lexlit. lexpunct. rewrite lex_num by (auto; lia).
      lexlit. lexpunct. rewrite lex_msk by lia. lexlit. lexpunct. reflexivity.
    + rewrite !app_assoc. lexlit. lexpunct. rewrite lex_num by (auto; lia).
      lexlit. rewrite lex_numU by (auto; lia).
      lexlit. lexpunct. rewrite lex_msk by lia. lexlit. lexpunct. reflexivity.
  - destruct (k_pos c >? 31).
    + rewrite !app_assoc. do 3 (lexlit; lexpunct).
      rewrite lex_num by (auto; lia).
      lexlit. lexpunct. rewrite lex_msk by lia.
      lexlit. rewrite lex_numU by (auto; lia). lexlit. lexpunct. reflexivity.
    + rewrite !app_assoc. lexlit. lexpunct.
      match goal with |- context [lex_from LIdle ("" ++ ?x)%string] =>
        change ("" ++ x)%string with x end.
      lexlit. lexpunct.
      rewrite lex_num by (auto; lia).
      lexlit. lexpunct. rewrite lex_msk by lia.
      lexlit. rewrite lex_numU by (auto; lia). lexlit. lexpunct. reflexivity.
Qed.

(** ** Syntax trees *)

Lemma utoks_unit : forall c k, erun (k, Need) (utoks c) = Some (k, Have (uexpr c)).
Proof.
  intros c k. unfold utoks, uexpr, btoks, mtoks, bexpr.
  destruct (k_pos c =? 0); [destruct (k_lo c =? 0); reflexivity|].
  destruct (k_pos c >? 31); reflexivity.
Qed.

Lemma utoks_no_semi : forall c, no_semi (utoks c) = true.
Proof.
  intros c. unfold utoks, btoks, mtoks.
  destruct (k_pos c =? 0); [destruct (k_lo c =? 0); reflexivity|].
  destruct (k_pos c >? 31); reflexivity.
Qed.

Fixpoint more_toks (l : list chunk) : list tok :=
  match l with
  | [] => []
  | c :: r => (TP (PBin OOr) :: utoks c ++ more_toks r)%list
  end.
Definition utoks_all (l : list chunk) : list tok :=
  match l with
  | [] => []
  | c :: r => (utoks c ++ more_toks r)%list
  end.
Definition or_expr (e : expr) (l : list chunk) : expr :=
  fold_left (fun a c => EBin OOr a (uexpr c)) l e.
Definition uexpr_all (l : list chunk) : expr :=
  match l with
  | [] => EInt I32 0
  | c :: r => or_expr (uexpr c) r
  end.

Lemma lex_more : forall l r, (forall c, In c l -> good c) ->
  lex_from LIdle (more l ++ r) = (more_toks l ++ lex_from LIdle r)%list.
Proof.
  induction l; intros r G; [reflexivity|].
  cbn [more more_toks]. rewrite !app_assoc.
  rewrite (lex_split " | " LIdle). change (lend LIdle " | ") with LIdle.
  change (lemit LIdle " | ") with [TP (PBin OOr)]. cbn [List.app].
  rewrite lex_utext by (apply G; now left).
  rewrite IHl by (intros; apply G; now right).
  now rewrite <- List.app_assoc.
Qed.

Lemma lex_ujoin : forall l r, (forall c, In c l -> good c) ->
  lex_from LIdle (ujoin l ++ r) = (utoks_all l ++ lex_from LIdle r)%list.
Proof.
  intros [|c l] r G; [reflexivity|].
  cbn [ujoin utoks_all]. rewrite app_assoc.
  rewrite lex_utext by (apply G; now left).
  rewrite lex_more by (intros; apply G; now right).
  now rewrite List.app_assoc.
Qed.

Lemma more_no_semi : forall l, no_semi (more_toks l) = true.
Proof.
  induction l; auto. cbn [more_toks]. unfold no_semi in *. cbn [forallb].
  rewrite forallb_app, IHl. pose proof (utoks_no_semi a). unfold no_semi in H.
  now rewrite H.
Qed.
Lemma utoks_all_no_semi : forall l, no_semi (utoks_all l) = true.
Proof.
  intros [|c l]; auto. cbn [utoks_all]. unfold no_semi. rewrite forallb_app.
  pose proof (utoks_no_semi c). pose proof (more_no_semi l). unfold no_semi in *.
  now rewrite H, H0.
Qed.

Lemma more_pending : forall l k a e,
  erun (FBin OOr a :: FParen :: k, Have e) (more_toks l ++ [TP PRpar])
  = Some (k, Have (or_expr (EBin OOr a e) l)).
Proof.
  induction l; intros k b e; [reflexivity|].
  cbn [more_toks List.app]. cbn [erun estep]. cbn [rprec prec reduce Nat.leb].
  rewrite <- List.app_assoc, erun_app, utoks_unit. rewrite IHl. reflexivity.
Qed.

Lemma more_first : forall l k e,
  erun (FParen :: k, Have e) (more_toks l ++ [TP PRpar]) = Some (k, Have (or_expr e l)).
Proof.
  intros [|c l] k e; [reflexivity|].
  cbn [more_toks List.app]. cbn [erun estep]. cbn [rprec prec reduce Nat.leb].
  rewrite <- List.app_assoc, erun_app, utoks_unit. rewrite more_pending. reflexivity.
Qed.

(** the parenthesised expression is an operand *)
Lemma uall_unit : forall l k, l <> [] ->
  erun (k, Need) (TP PLpar :: utoks_all l ++ [TP PRpar]) = Some (k, Have (uexpr_all l)).
Proof.
  intros [|c l] k N; [congruence|]. cbn [utoks_all].
  cbn [erun estep]. rewrite <- List.app_assoc, erun_app, utoks_unit.
  apply more_first.
Qed.

(** ** Values *)

Definition byte_at (d : list Z) (b : Z) : Z := nth (Z.to_nat b) d 0.

(** the number contributed by a chunk: the shift is done in 32 bits up to position 31 *)
Definition chunk_val (d : list Z) (c : chunk) : Z :=
  let v := Z.land (Z.shiftr (byte_at d (k_byte c)) (k_lo c)) (mask (k_w c)) in
  if k_pos c >? 31 then Z.shiftl v (k_pos c) else (Z.shiftl v (k_pos c)) mod 2 ^ 32.

Definition chunk_ty (c : chunk) : cty := if k_pos c >? 31 then U64 else U32.

Lemma byte_read : forall d b, 0 <= b < Z.of_nat (List.length d) ->
  read_idx (Some d) b = Ok (VI U8 (byte_at d b)).
Proof.
  intros. unfold read_idx, byte_at. replace (b <? 0) with false by lia.
  rewrite nth_error_nth' with (d := 0) by lia. reflexivity.
Qed.

Lemma byte_at_byte : forall d b, (forall x, In x d -> is_byte x) -> is_byte (byte_at d b).
Proof.
  intros d b H. unfold byte_at. destruct (nth_in_or_default (Z.to_nat b) d 0) as [I| ->].
  - auto.
  - unfold is_byte. lia.
Qed.

Lemma bin_and_u32 : forall t a b, is_signed t = false \/ 0 <= a ->
  promote t <> I64 -> promote t <> U64 -> 0 <= a < 2 ^ 32 -> 0 <= b < 2 ^ 32 ->
  bin_val OAnd (VI t a) (VI U32 b) = Ok (VI U32 (Z.land a b)).
Proof.
  intros t a b _ H1 H2 A B. unfold bin_val, int_op.
  assert (U : usual t U32 = U32) by (unfold usual; destruct t; simpl in *; congruence).
  rewrite U. rewrite !conv_id; auto; apply fits_u; auto.
Qed.

Lemma eval_uexpr : forall n c m d ch, good ch ->
  m_arr m "_d" = Some d -> (forall x, In x d -> is_byte x) ->
  k_byte ch < Z.of_nat (List.length d) ->
  c_types c "uint64_t" = Some (LInt U64) ->
  eval n c m [] (uexpr ch) = Ok (VI (chunk_ty ch) (chunk_val d ch)).
Proof.
  intros n c m d ch (B & Lo & W & LW & P & PW & PL) D BY LEN T.
  assert (HB : is_byte (byte_at d (k_byte ch))) by now apply byte_at_byte.
  assert (HM : 0 <= mask (k_w ch) < 2 ^ 8).
  { unfold mask. pose proof (pow2_pos (k_w ch) ltac:(lia)).
    assert (2 ^ k_w ch <= 2 ^ 8) by (apply Z.pow_le_mono_r; lia). lia. }
  assert (E0 : eval n c m [] (bexpr (k_byte ch)) = Ok (VI U8 (byte_at d (k_byte ch)))).
  { unfold bexpr. rewrite eval_idx, eval_int. cbn [bind path]. rewrite D.
    apply byte_read. lia. }
  set (b := byte_at d (k_byte ch)) in *. unfold is_byte in HB.
  assert (LB : forall x, 0 <= x -> 0 <= Z.land x (mask (k_w ch)) < 2 ^ 8)
    by (intros; apply land_range; lia).
  change (2 ^ 8) with 256 in *.
  unfold uexpr, chunk_val, chunk_ty. fold b.
  destruct (Z.eqb_spec (k_pos ch) 0) as [P0|P0].
  - rewrite P0. cbn [Z.gtb Z.compare]. rewrite Z.shiftl_0_r.
    destruct (Z.eqb_spec (k_lo ch) 0) as [L0|L0].
    + rewrite eval_bin by reflexivity. rewrite E0, eval_int. cbn [bind].
      rewrite bin_and_u32; auto; try discriminate; try (change (2 ^ 32) with 4294967296; lia).
      rewrite L0, Z.shiftr_0_r. rewrite Z.mod_small; auto.
      specialize (LB b ltac:(lia)). change (2 ^ 32) with 4294967296. lia.
    + rewrite !eval_bin by reflexivity. rewrite E0, !eval_int. cbn [bind].
      unfold bin_val at 1, int_op, shift_op. cbn [promote width].
      replace ((k_lo ch <? 0) || (32 <=? k_lo ch)) with false by lia. cbn [bind].
      assert (S : 0 <= Z.shiftr b (k_lo ch) < 256).
      { rewrite Z.shiftr_div_pow2 by lia.
        pose proof (pow2_pos (k_lo ch) ltac:(lia)). split; [apply Z.div_pos; lia|].
        apply Z.div_lt_upper_bound; [lia|]. nia. }
      rewrite bin_and_u32; auto; try discriminate; try (change (2 ^ 32) with 4294967296; lia).
      rewrite Z.mod_small; auto.
      specialize (LB (Z.shiftr b (k_lo ch)) ltac:(lia)). change (2 ^ 32) with 4294967296. lia.
  - rewrite (PL ltac:(lia)), Z.shiftr_0_r.
    specialize (LB b ltac:(lia)). set (v := Z.land b (mask (k_w ch))) in *.
    assert (EV : eval n c m [] (EBin OAnd (bexpr (k_byte ch)) (EInt U32 (mask (k_w ch))))
                 = Ok (VI U32 v)).
    { rewrite eval_bin by reflexivity. rewrite E0, eval_int. cbn [bind].
      apply bin_and_u32; auto; try discriminate; try (change (2 ^ 32) with 4294967296; lia). }
    rewrite eval_bin by reflexivity. rewrite eval_int.
    destruct (Z.gtb_spec (k_pos ch) 31).
    + rewrite eval_cast, EV. cbn [bind]. rewrite T. cbn [to_obj to_int bind].
      rewrite conv_id by (apply fits_u; auto; simpl; lia).
      unfold bin_val, int_op, shift_op. cbn [promote width is_signed].
      replace ((k_pos ch <? 0) || (64 <=? k_pos ch)) with false by lia.
      rewrite conv_id; auto. apply fits_u; auto. cbn [width].
      rewrite Z.shiftl_mul_pow2 by lia.
      assert (v < 2 ^ k_w ch).
      { subst v. apply land_range; [lia|]. unfold mask.
        pose proof (pow2_pos (k_w ch) ltac:(lia)). lia. }
      pose proof (pow2_pos (k_pos ch) ltac:(lia)). split; [nia|].
      apply Z.lt_le_trans with (2 ^ k_w ch * 2 ^ k_pos ch); [nia|].
      rewrite <- Z.pow_add_r by lia. apply Z.pow_le_mono_r; lia.
    + rewrite EV. cbn [bind]. unfold bin_val, int_op, shift_op. cbn [promote width is_signed].
      replace ((k_pos ch <? 0) || (32 <=? k_pos ch)) with false by lia. reflexivity.
Qed.

Lemma chunk_val_range : forall d ch, good ch -> (forall x, In x d -> is_byte x) ->
  0 <= chunk_val d ch < 2 ^ width (chunk_ty ch).
Proof.
  intros d ch (B & Lo & W & LW & P & PW & PL) BY.
  unfold chunk_val, chunk_ty. set (v := Z.land _ _).
  assert (V : 0 <= v < 2 ^ k_w ch).
  { subst v. apply land_range; [lia|]. unfold mask.
    pose proof (pow2_pos (k_w ch) ltac:(lia)). lia. }
  destruct (k_pos ch >? 31); cbn [width].
  - rewrite Z.shiftl_mul_pow2 by lia.
    pose proof (pow2_pos (k_pos ch) ltac:(lia)). split; [nia|].
    apply Z.lt_le_trans with (2 ^ k_w ch * 2 ^ k_pos ch); [nia|].
    rewrite <- Z.pow_add_r by lia. apply Z.pow_le_mono_r; lia.
  - apply Z.mod_pos_bound. lia.
Qed.

Definition or_val (d : list Z) (z : Z) (l : list chunk) : Z :=
  fold_left (fun a c => Z.lor a (chunk_val d c)) l z.

(** unsigned types of at least int size *)
Definition big_u (t : cty) : Prop := t = U32 \/ t = U64.

Lemma bin_or_u : forall t a u b, big_u t -> big_u u ->
  0 <= a < 2 ^ width t -> 0 <= b < 2 ^ width u ->
  exists w, bin_val OOr (VI t a) (VI u b) = Ok (VI w (Z.lor a b)) /\ big_u w /\
            0 <= Z.lor a b < 2 ^ width w.
Proof.
  intros t a u b T U A B.
  assert (H : exists w, usual t u = w /\ big_u w /\ width t <= width w /\ width u <= width w).
  { destruct T, U; subst; eexists; (split; [reflexivity|]); unfold big_u; simpl; auto;
      repeat split; auto; lia. }
  destruct H as (w & UW & BW & W1 & W2). exists w.
  assert (S : is_signed w = false) by (destruct BW; subst w; rewrite H; reflexivity).
  assert (0 <= width w) by (destruct w; simpl; lia).
  assert (2 ^ width t <= 2 ^ width w) by (apply Z.pow_le_mono_r; lia).
  assert (2 ^ width u <= 2 ^ width w) by (apply Z.pow_le_mono_r; lia).
  unfold bin_val, int_op. rewrite UW.
  rewrite !conv_id by (apply fits_u; auto; lia).
  split; [reflexivity|]. split; auto. apply lor_range; lia.
Qed.

Lemma eval_or : forall n c m d l e t z,
  m_arr m "_d" = Some d -> (forall x, In x d -> is_byte x) ->
  c_types c "uint64_t" = Some (LInt U64) ->
  (forall ch, In ch l -> good ch /\ k_byte ch < Z.of_nat (List.length d)) ->
  eval n c m [] e = Ok (VI t z) -> big_u t -> 0 <= z < 2 ^ width t ->
  exists w, eval n c m [] (or_expr e l) = Ok (VI w (or_val d z l)) /\ big_u w /\
            0 <= or_val d z l < 2 ^ width w.
Proof.
  induction l as [|ch l IH]; intros e t z D BY T G E BT R.
  - exists t. auto.
  - cbn [or_expr or_val fold_left].
    destruct (G ch (or_introl eq_refl)) as [G1 G2].
    pose proof (eval_uexpr n c m d ch G1 D BY G2 T) as EC.
    pose proof (chunk_val_range d ch G1 BY) as RC.
    assert (BC : big_u (chunk_ty ch)) by (unfold chunk_ty, big_u; destruct (k_pos ch >? 31); auto).
    destruct (bin_or_u t z (chunk_ty ch) (chunk_val d ch) BT BC R RC) as (w & EO & BW & RW).
    apply (IH (EBin OOr e (uexpr ch)) w (Z.lor z (chunk_val d ch))); auto.
    + intros. apply G. now right.
    + rewrite eval_bin by reflexivity. rewrite E, EC. cbn [bind]. exact EO.
Qed.

(** the value of the whole expression *)
Definition or_all (d : list Z) (l : list chunk) : Z := or_val d 0 l.

Lemma or_val_first : forall d c l, or_val d (chunk_val d c) l = or_all d (c :: l).
Proof. intros. unfold or_all, or_val. cbn [fold_left]. rewrite Z.lor_0_l. reflexivity. Qed.

Lemma eval_uall : forall n c m d l, l <> [] ->
  m_arr m "_d" = Some d -> (forall x, In x d -> is_byte x) ->
  c_types c "uint64_t" = Some (LInt U64) ->
  (forall ch, In ch l -> good ch /\ k_byte ch < Z.of_nat (List.length d)) ->
  exists w, eval n c m [] (uexpr_all l) = Ok (VI w (or_all d l)) /\ big_u w /\
            0 <= or_all d l < 2 ^ width w.
Proof.
  intros n c m d [|ch l] N D BY T G; [congruence|].
  destruct (G ch (or_introl eq_refl)) as [G1 G2].
  rewrite <- or_val_first. cbn [uexpr_all].
  apply eval_or with (t := chunk_ty ch); auto.
  - intros. apply G. now right.
  - apply eval_uexpr; auto.
  - unfold chunk_ty, big_u. destruct (k_pos ch >? 31); auto.
  - apply chunk_val_range; auto.
Qed.

(** ** Bits of the value *)

Lemma chunk_val_testbit : forall d ch k, good ch -> (forall x, In x d -> is_byte x) -> 0 <= k ->
  Z.testbit (chunk_val d ch) k
  = (k_pos ch <=? k) && (k <? k_pos ch + k_w ch)
    && Z.testbit (byte_at d (k_byte ch)) (k_lo ch + (k - k_pos ch))
    && ((31 <? k_pos ch) || (k <? 32)).
Proof.
  intros d ch k (B & Lo & W & LW & P & PW & PL) BY K.
  unfold chunk_val. set (b := byte_at d (k_byte ch)).
  assert (V : forall j, 0 <= j ->
    Z.testbit (Z.land (Z.shiftr b (k_lo ch)) (mask (k_w ch))) j
    = Z.testbit b (k_lo ch + j) && (j <? k_w ch)).
  { intros j J. rewrite Z.land_spec, Z.shiftr_spec by lia. unfold mask.
    rewrite ones_testbit by lia. rewrite Z.add_comm. reflexivity. }
  set (v := Z.land _ _) in *.
  assert (S : Z.testbit (Z.shiftl v (k_pos ch)) k
              = (k_pos ch <=? k) && (k <? k_pos ch + k_w ch)
                && Z.testbit b (k_lo ch + (k - k_pos ch))).
  { rewrite Z.shiftl_spec by lia. destruct (Z.leb_spec (k_pos ch) k).
    - rewrite V by lia. rewrite andb_comm. f_equal.
      destruct (Z.ltb_spec (k - k_pos ch) (k_w ch)), (Z.ltb_spec k (k_pos ch + k_w ch)); auto; lia.
    - rewrite Z.testbit_neg_r by lia. reflexivity. }
  rewrite Z.gtb_ltb. destruct (Z.ltb_spec 31 (k_pos ch)).
  - rewrite S. cbn [orb]. now rewrite andb_true_r.
  - rewrite mod_testbit by lia. rewrite S. cbn [orb]. now rewrite andb_comm.
Qed.

Lemma or_val_testbit : forall d l z k,
  Z.testbit (or_val d z l) k = Z.testbit z k || existsb (fun c => Z.testbit (chunk_val d c) k) l.
Proof.
  induction l; intros z k; cbn [or_val fold_left existsb].
  - now rewrite orb_false_r.
  - fold (or_val d (Z.lor z (chunk_val d a)) l). rewrite IHl, Z.lor_spec, orb_assoc. reflexivity.
Qed.

(** value bits lost by the 32-bit shift *)
Definition lost (o : layout) (start len k : Z) : bool :=
  (32 <=? k) && (k <? 32 + residue o start len).

(** what the emitted unpack expression computes *)
Definition unpacked (o : layout) (start len : Z) (d : list Z) : Z :=
  bits_val (fun k => negb (lost o start len k) && payload_bit d (sig_pos o start len k))
           (Z.to_nat len).

Ltac Zify.zify_post_hook ::= Z.div_mod_to_equations.

Lemma chunks_good : forall o start len dlc c, 1 <= len <= 64 -> 0 <= start -> dlc <= 64 ->
  in_frame o start len dlc -> In c (chunks o start len) ->
  good c /\ 0 <= k_byte c < dlc.
Proof.
  intros o start len dlc c L S D F I.
  pose proof (chunks_bytes o start len dlc c ltac:(lia) S F I) as B.
  destruct (chunks_spec o start len c ltac:(lia) S I) as (A1 & A2 & A3 & A4 & A5 & A6 & A7).
  split; [|auto]. unfold good. intuition lia.
Qed.

Lemma or_all_chunks : forall o start len dlc d, 1 <= len <= 64 -> 0 <= start -> dlc <= 64 ->
  in_frame o start len dlc -> (forall x, In x d -> is_byte x) ->
  or_all d (chunks o start len) = unpacked o start len d.
Proof.
  intros o start len dlc d L S D F BY. apply Z.bits_inj'. intros k K.
  unfold or_all. rewrite or_val_testbit, Z.bits_0. cbn [orb].
  unfold unpacked. rewrite bits_val_testbit by auto. rewrite Z2Nat.id by lia.
  assert (BIT : forall c, In c (chunks o start len) -> k_pos c <= k < k_pos c + k_w c ->
    Z.testbit (chunk_val d c) k
    = negb (lost o start len k) && payload_bit d (sig_pos o start len k)).
  { intros c I R.
    destruct (chunks_good o start len dlc c L S D F I) as [G B].
    destruct (chunks_spec o start len c ltac:(lia) S I) as (A1 & A2 & A3 & A4 & A5 & A6 & A7).
    rewrite chunk_val_testbit by auto.
    replace (k_pos c <=? k) with true by lia. replace (k <? k_pos c + k_w c) with true by lia.
    cbn [andb].
    specialize (A7 (k - k_pos c) ltac:(lia)).
    replace (k_pos c + (k - k_pos c)) with k in A7 by lia.
    assert (PB : payload_bit d (sig_pos o start len k)
                 = Z.testbit (byte_at d (k_byte c)) (k_lo c + (k - k_pos c))).
    { unfold payload_bit, byte_at. rewrite A7. f_equal; [do 2 f_equal; lia | lia]. }
    rewrite PB, andb_comm. f_equal.
    unfold lost.
    destruct (Z.eq_dec (k_pos c) 0) as [P0|P0].
    - (* the least significant chunk ends below bit 8 *)
      replace (32 <=? k) with false by lia. cbn [andb negb]. lia.
    - destruct (A6 ltac:(lia)) as [LO RES]. rewrite <- RES. lia. }
  destruct (Z.ltb_spec k len) as [KL|KL].
  - cbn [andb].
    destruct (chunks_cover o start len k S ltac:(lia)) as (c & I & R).
    destruct (negb (lost o start len k) && payload_bit d (sig_pos o start len k)) eqn:E.
    + apply existsb_exists. exists c. split; [exact I|]. rewrite BIT; auto.
    + apply not_true_is_false. intros X. apply existsb_exists in X.
      destruct X as (c' & I' & T').
      destruct (chunks_good o start len dlc c' L S D F I') as [G' B'].
      assert (R' : k_pos c' <= k < k_pos c' + k_w c').
      { rewrite chunk_val_testbit in T' by auto. lia. }
      rewrite BIT in T' by auto. congruence.
  - cbn [andb]. apply not_true_is_false. intros X. apply existsb_exists in X.
    destruct X as (c' & I' & T').
    destruct (chunks_good o start len dlc c' L S D F I') as [G' B'].
    destruct (chunks_spec o start len c' ltac:(lia) S I') as (A1 & A2 & A3 & A4 & A5 & A6 & A7).
    rewrite chunk_val_testbit in T' by auto. lia.
Qed.

Lemma unpacked_exact : forall o start len d, 0 <= len ->
  len <= 32 \/ sig_pos o start len 0 mod 8 = 0 ->
  unpacked o start len d = raw_value o start len d.
Proof.
  intros o start len d L H. unfold unpacked, raw_value. apply bits_val_ext. intros k K.
  rewrite Z2Nat.id in K by lia.
  replace (lost o start len k) with false; [reflexivity|].
  unfold lost, residue. lia.
Qed.

Lemma unpacked_range : forall o start len d, 0 <= len -> 0 <= unpacked o start len d < 2 ^ len.
Proof.
  intros. unfold unpacked.
  match goal with |- context [bits_val ?f ?n] => pose proof (bits_val_range f n) end.
  now rewrite Z2Nat.id in H0 by lia.
Qed.
