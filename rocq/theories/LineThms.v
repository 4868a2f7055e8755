(** The assignment lines of the emitted functions are complete. *)

From Coq Require Import ZArith NArith List String Ascii Bool Lia ZifyBool Permutation.
From Verif Require Import Base Dbl CSyntax CSem CRun Types Formatter SigPrinter Settings MainGen App CodecSpec MsgSpec LexLemmas Chunks UnpackProof PPProof
  BodyLemmas UnpackBody UnpackFun PackProof PackBody SourceFun DriverSpec HeaderSpec DriverProof GuardProof LineSpec.
Import ListNotations.
Open Scope Z_scope.

Definition spart_of (c : chunk) : spart := {| p_byte := k_byte c; p_lo := k_lo c; p_n := k_w c; p_k := k_pos c |}.

Lemma load_term_of : forall c, good c -> load_term (spart_of c) = utext c.
Proof.
  intros c (B & L0 & W & LW & P & PW & PL). unfold load_term, utext, spart_of, mask_text, msk. cbn [p_byte p_lo p_n p_k].
  rewrite !decZ_num by lia. replace (31 <? k_pos c) with (k_pos c >? 31) by (rewrite Z.gtb_ltb; reflexivity).
  assert (X : nth (Z.to_nat (k_w c)) [""; "0x01U"; "0x03U"; "0x07U"; "0x0FU"; "0x1FU"; "0x3FU"; "0x7FU"; "0xFFU"]%string ""%string =
              nth (Z.to_nat (k_w c)) ["0"; "0x01U"; "0x03U"; "0x07U"; "0x0FU"; "0x1FU"; "0x3FU"; "0x7FU"; "0xFFU"]%string ""%string).
  { destruct (Z.to_nat (k_w c)) eqn:E; [lia|reflexivity]. }
  rewrite X. destruct (k_pos c =? 0); [destruct (k_lo c =? 0)|]; rewrite ?app_assoc; reflexivity.
Qed.
Lemma store_term_of : forall nm c, good c -> store_term nm (spart_of c) = ptext nm c.
Proof.
  intros nm c (B & L0 & W & LW & P & PW & PL). unfold store_term, ptext, spart_of, mask_text, msk. cbn [p_byte p_lo p_n p_k].
  rewrite !decZ_num by lia.
  assert (X : nth (Z.to_nat (k_w c)) [""; "0x01U"; "0x03U"; "0x07U"; "0x0FU"; "0x1FU"; "0x3FU"; "0x7FU"; "0xFFU"]%string ""%string =
              nth (Z.to_nat (k_w c)) ["0"; "0x01U"; "0x03U"; "0x07U"; "0x0FU"; "0x1FU"; "0x3FU"; "0x7FU"; "0xFFU"]%string ""%string).
  { destruct (Z.to_nat (k_w c)) eqn:E; [lia|reflexivity]. }
  rewrite X. reflexivity.
Qed.

Lemma share_of : forall dlc sg c, sig_ok dlc sg -> In c (sig_chunks sg) -> share sg (spart_of c).
Proof.
  intros dlc sg c OK I. pose proof (ok_len _ _ OK) as LEN.
  destruct (chunks_spec (s_order sg) (s_start sg) (s_len sg) c ltac:(lia) (ok_start _ _ OK) I) as (A1 & A2 & A3 & A4 & A5 & A6 & A7).
  constructor; cbn [spart_of p_byte p_lo p_n p_k]; try lia.
  - exact A7.
  - intros q Q E. destruct (chunks_cover (s_order sg) (s_start sg) (s_len sg) q (ok_start _ _ OK) Q) as (c' & I' & K).
    destruct (chunks_spec (s_order sg) (s_start sg) (s_len sg) c' ltac:(lia) (ok_start _ _ OK) I') as (B1 & B2 & B3 & B4 & B5 & B6 & B7).
    assert (EB : k_byte c' = k_byte c).
    { specialize (B7 (q - k_pos c') ltac:(lia)). replace (k_pos c' + (q - k_pos c')) with q in B7 by lia. rewrite B7 in E. lia. }
    assert (c' = c); [|subst; exact K].
    pose proof (chunks_nodup (s_order sg) (s_start sg) (s_len sg)) as N. fold (sig_chunks sg) in *. unfold sig_chunks in *.
    clear - N I I' EB. set (l := chunks _ _ _) in *. clearbody l. induction l as [|x l IH]; [destruct I|]. cbn [map] in N. apply NoDup_cons_iff in N. destruct N as [N1 N2].
    destruct I as [->|I], I' as [->|I']; auto.
    + exfalso. apply N1. rewrite <- EB. now apply in_map.
    + exfalso. apply N1. rewrite EB. now apply in_map.
Qed.

Lemma ujoin_concat : forall l, (forall c, In c l -> good c) -> ujoin l = String.concat " | " (map load_term (map spart_of l)).
Proof.
  intros [|c l] G; [reflexivity|]. cbn [ujoin map]. revert c G. induction l as [|d l IH]; intros c G.
  - cbn [more map String.concat]. rewrite load_term_of by (apply G; now left). apply app_nil_r.
  - cbn [more map]. specialize (IH d (fun x I => G x (or_intror I))).
    change (String.concat " | " (load_term (spart_of c) :: load_term (spart_of d) :: map load_term (map spart_of l)))
      with (load_term (spart_of c) ++ " | " ++ String.concat " | " (load_term (spart_of d) :: map load_term (map spart_of l)))%string.
    rewrite <- IH. rewrite load_term_of by (apply G; now left). reflexivity.
Qed.
Lemma pjoin_concat : forall l, pjoin l = String.concat " | " (map part_text l).
Proof.
  intros [|x l]; [reflexivity|]. rewrite pjoin_cons. revert x. induction l as [|y l IH]; intros x.
  - cbn [pmore map String.concat]. apply app_nil_r.
  - cbn [pmore map]. specialize (IH y). cbn [map] in IH.
    change (String.concat " | " (part_text x :: part_text y :: map part_text l)) with (part_text x ++ " | " ++ String.concat " | " (part_text y :: map part_text l))%string.
    rewrite <- IH. reflexivity.
Qed.

(** one term for every signal with bits in the byte *)
Lemma byte_terms : forall dlc i sgs, dlc <= 64 -> (forall sg, In sg sgs -> sig_ok dlc sg) ->
  Forall2 (fun sg t => exists p, share sg p /\ p_byte p = i /\ t = store_term (s_name sg) p) (filter (fun sg => in_byte sg i) sgs) (map part_text (byte_parts sgs i)).
Proof.
  intros dlc i sgs D. induction sgs as [|sg r IH]; intros OK; [constructor|].
  specialize (IH (fun s I => OK s (or_intror I))). pose proof (OK sg (or_introl eq_refl)) as O. pose proof (ok_len _ _ O) as LEN.
  unfold byte_parts in *. cbn [flat_map filter]. rewrite map_app.
  assert (S : if in_byte sg i then exists c, In c (sig_chunks sg) /\ k_byte c = i /\ sig_parts i sg = [(sg, c)] else sig_parts i sg = []).
  { pose proof (filter_one i (sig_chunks sg) (chunks_nodup _ _ _)) as F1. unfold sig_parts.
    destruct (in_byte sg i) eqn:IB.
    - apply in_byte_spec in IB. destruct IB as (k & K & E).
      destruct (chunks_cover (s_order sg) (s_start sg) (s_len sg) k (ok_start _ _ O) K) as (c & I & KC).
      destruct (chunks_spec (s_order sg) (s_start sg) (s_len sg) c ltac:(lia) (ok_start _ _ O) I) as (B1 & B2 & B3 & B4 & B5 & B6 & B7).
      assert (EB : k_byte c = i).
      { specialize (B7 (k - k_pos c) ltac:(lia)). replace (k_pos c + (k - k_pos c)) with k in B7 by lia. rewrite B7 in E. lia. }
      assert (IF : In c (filter (fun ch => k_byte ch =? i) (sig_chunks sg))) by (apply filter_In; split; [exact I|lia]).
      destruct (filter (fun ch => k_byte ch =? i) (sig_chunks sg)) as [|c0 [|]]; [destruct IF| |cbn in F1; lia].
      destruct IF as [->|[]]. exists c. auto.
    - destruct (filter (fun ch => k_byte ch =? i) (sig_chunks sg)) as [|c l] eqn:F; [reflexivity|].
      assert (I : In c (filter (fun ch => k_byte ch =? i) (sig_chunks sg))) by (rewrite F; now left). apply filter_In in I. destruct I as [I1 I2].
      destruct (chunks_spec (s_order sg) (s_start sg) (s_len sg) c ltac:(lia) (ok_start _ _ O) I1) as (A1 & A2 & A3 & A4 & A5 & A6 & A7).
      enough (in_byte sg i = true) by congruence. apply in_byte_spec. exists (k_pos c). specialize (A7 0 ltac:(lia)). rewrite Z.add_0_r in A7. split; [lia|]. rewrite A7. lia. }
  destruct (in_byte sg i).
  - destruct S as (c & I & E & ->). cbn [map List.app]. constructor; [|exact IH]. exists (spart_of c). split; [eapply share_of; eauto|]. split; [exact E|].
    unfold part_text. cbn [fst snd]. symmetry. apply store_term_of. apply (sig_chunks_good _ _ O D _ I).
  - rewrite S. exact IH.
Qed.

Lemma bytes_in : forall st sgs n i j, i <= j < i + Z.of_nat n -> byte_parts sgs j <> [] -> In (or_line st j (byte_parts sgs j)) (flat (bytes_items st sgs n i)).
Proof.
  intros st sgs. induction n as [|n IH]; intros i j J N; [lia|]. cbn [bytes_items].
  destruct (Z.eq_dec i j) as [->|NE].
  - destruct (byte_parts sgs j); [congruence|]. cbn [flat]. now left.
  - specialize (IH (i + 1) j ltac:(lia) N). destruct (byte_parts sgs i); [exact IH|]. cbn [flat]. now right.
Qed.
Lemma sig_in : forall g sgs sg, In sg sgs -> In (sig_line sg) (flat (sigs_items g sgs)).
Proof.
  intros g. induction sgs as [|s r IH]; intros sg I; [destruct I|]. cbn [sigs_items]. rewrite flat_iapp. apply in_app_iff.
  destruct I as [->|I]; [left; now left|right; now apply IH].
Qed.

Lemma msg_in : forall g ms m l, In m ms -> In l (flat (msg_items g m)) -> In l (flat (fold_right (fun m r => iapp (msg_items g m) r) INil ms)).
Proof.
  intros g. induction ms as [|a ms IH]; intros m l I J; [destruct I|]. cbn [fold_right]. rewrite flat_iapp. apply in_app_iff.
  destruct I as [->|I]; [now left|right; eauto].
Qed.
Lemma clist_in : forall l r x, In x (flat r) -> In x (flat (clist l r)).
Proof. intros l r x I. rewrite flat_clist. apply in_app_iff. now right. Qed.
Lemma cond_in : forall n x a e b t r y, In y (flat r) -> In y (flat (ICond n x a e b t r)).
Proof. intros n x a e b t r y I. cbn [flat]. right. rewrite !in_app_iff. right. right. cbn [In]. auto. Qed.
Lemma rest_in : forall g ms l, In l (flat (fold_right (fun m r => iapp (msg_items g m) r) INil ms)) -> In l (flat (rest_items g ms)).
Proof. intros g ms l I. unfold rest_items. repeat first [apply clist_in | apply cond_in]. exact I. Qed.
Lemma source_in : forall drv g d h c m l, driver drv g d h c -> header_ok d -> In m (d_msgs d) -> In l (flat (msg_items g m)) -> In l (lines c).
Proof.
  intros drv g d h c m l DR HO I J. destruct (driver_texts _ _ _ _ _ DR HO) as [(ms & SO & EL & W & PMS) _ _ _ _].
  rewrite EL, src_split. apply in_app_iff. right. do 3 right. apply rest_in. eapply msg_in; [|exact J]. eapply Permutation_in; [apply Permutation_sym; exact PMS|exact I].
Qed.

Theorem unpack_lines : forall drv g d h c m sg, driver drv g d h c -> header_ok d -> In m (d_msgs d) -> g_notempty m = true -> In sg (g_sigs m) ->
  exists ps, NoDup (map p_byte ps) /\ (forall p, In p ps -> share sg p) /\ (forall k, 0 <= k < s_len sg -> exists p, In p ps /\ p_k p <= k < p_k p + p_n p) /\
    In (assign_line sg ps) (lines c).
Proof.
  intros drv g d h c m sg DR HO I NE S. destruct (dr_msgs _ _ _ _ _ DR m I) as (MO & _ & _). pose proof (mo_sigs m MO sg S) as OK. pose proof (mo_dlc m MO) as D.
  exists (map spart_of (sig_chunks sg)). split; [|split; [|split]].
  - rewrite map_map. cbn [spart_of p_byte]. apply chunks_nodup.
  - intros p P. apply in_map_iff in P. destruct P as (c0 & <- & P). eapply share_of; eauto.
  - intros k K. destruct (chunks_cover (s_order sg) (s_start sg) (s_len sg) k (ok_start _ _ OK) K) as (c0 & P & Q). exists (spart_of c0). split; [now apply in_map|exact Q].
  - apply (source_in drv g d h c m); auto. unfold msg_items. rewrite NE. cbn [flat]. right. right. rewrite flat_iapp. apply in_app_iff. left.
    unfold un_items. cbn [flat]. right. unfold unpack_items. rewrite flat_iapp. apply in_app_iff. left.
    replace (assign_line sg (map spart_of (sig_chunks sg))) with (sig_line sg); [now apply sig_in|].
    unfold assign_line, sig_line, uj. rewrite ujoin_concat by (intros x X; apply (sig_chunks_good _ _ OK ltac:(lia) _ X)).
    destruct (s_signed sg); rewrite ?app_assoc; reflexivity.
Qed.

Theorem pack_lines : forall drv g d h c m i st, driver drv g d h c -> header_ok d -> In m (d_msgs d) -> g_notempty m = true -> 0 <= i < g_dlc m ->
  exists terms, Forall2 (fun sg t => exists p, share sg p /\ p_byte p = i /\ t = store_term (s_name sg) p) (filter (fun sg => in_byte sg i) (g_sigs m)) terms /\
    (terms <> [] -> In (fill_line (buffer st) i terms) (lines c)).
Proof.
  intros drv g d h c m i st DR HO I NE D. destruct (dr_msgs _ _ _ _ _ DR m I) as (MO & _ & _). pose proof (mo_dlc m MO) as DL.
  exists (map part_text (byte_parts (g_sigs m) i)). split; [apply (byte_terms (g_dlc m)); [lia|apply MO]|]. intros NT.
  apply (source_in drv g d h c m); auto. unfold msg_items. rewrite NE. cbn [flat]. right. right. rewrite flat_iapp. apply in_app_iff. right.
  cbn [flat]. do 3 right. rewrite !in_app_iff.
  assert (X : In (fill_line (buffer st) i (map part_text (byte_parts (g_sigs m) i))) (flat (pack_fun_items g m st))).
  { unfold pack_fun_items. cbn [flat]. do 3 right. rewrite flat_iapp, in_app_iff. left. unfold pack_items. cbn [flat]. do 2 right. rewrite !flat_iapp, !in_app_iff.
    do 3 right. left. replace (fill_line (buffer st) i (map part_text (byte_parts (g_sigs m) i))) with (or_line st i (byte_parts (g_sigs m) i)).
    - apply bytes_in; [rewrite Z2Nat.id by lia; lia|]. intros E. rewrite E in NT. now apply NT.
    - unfold or_line, fill_line. rewrite pjoin_concat. now destruct st. }
  destruct st; [now left|]. right. left. cbn [In]. auto.
Qed.
