(** The type of physical values with an integer scaling is the smallest that holds them. *)

From Coq Require Import ZArith NArith List String Ascii Bool Lia ZifyBool.
From Coq Require Import Floats.SpecFloat.
From Verif Require Import Base Dbl CSyntax CSem Types LineParser CodecSpec ConvSpec ScanThms SigTypes PhysSpec.
Import ListNotations.
Open Scope Z_scope.

Definition top_ok (signed : bool) (len : Z) : bool :=
  match top_of signed len with
  | Ok m => let n := if signed then len - 1 else len in
            (len <=? 63) && if n <=? 53 then m =? 2 ^ n - 1 else (m =? 2 ^ n)
  | _ => true
  end.
Lemma top_oks : forallb (fun n => top_ok false (Z.of_nat n) && top_ok true (Z.of_nat n)) (seq 1 255) = true.
Proof. vm_compute. reflexivity. Qed.
Lemma top_exact : forall (s : bool) (len m : Z), 1 <= len <= 255 -> top_of s len = Ok m ->
  len <= 63 /\ if (if s then len - 1 else len) <=? 53 then m = raw_high s len else m = raw_high s len + 1 /\ 2 ^ 54 <= m.
Proof.
  intros s len m H T. pose proof top_oks as G. rewrite forallb_forall in G. specialize (G (Z.to_nat len)).
  rewrite Z2Nat.id in G by lia. assert (I : In (Z.to_nat len) (seq 1 255)) by (apply in_seq; lia). specialize (G I).
  apply andb_true_iff in G as [A B]. assert (X : top_ok s len = true) by (now destruct s). unfold top_ok in X. rewrite T in X. cbv zeta in X.
  apply andb_true_iff in X as [L X]. split; [lia|]. unfold raw_high. destruct s.
  - destruct (len - 1 <=? 53) eqn:E; [lia|]. assert (2 ^ 54 <= 2 ^ (len - 1)) by (apply Z.pow_le_mono_r; lia). lia.
  - destruct (len <=? 53) eqn:E; [lia|]. assert (2 ^ 54 <= 2 ^ len) by (apply Z.pow_le_mono_r; lia). lia.
Qed.

Lemma phys_choice : forall (signed : bool) (len : Z) (factor offset : dbl) ro ph (F O : Z), 1 <= len <= 255 ->
  get_sig_type signed len false factor offset = Ok (ro, ph) -> int_val factor F -> int_val offset O -> 0 < F -> - 2 ^ 53 < O < 2 ^ 53 ->
  ph = smallest_type signed len F O.
Proof.
  intros signed len factor offset ro ph F O L E IF IO P B. unfold get_sig_type in E. apply bind_inv in E as (x0 & _ & E). apply bind_inv in E as (m & T & E).
  change (top_of signed len = Ok m) in T. destruct (top_exact _ _ _ L T) as [L63 TE]. clear T. cbv zeta in E.
  apply bind_inv in E as (mn & MN & E).
  assert (M : mn = if signed then - (m + 1) else 0).
  { destruct signed; [|congruence]. apply bind_inv in MN as (a & A & MN). apply i64_inv in A as [-> _]. apply i64_inv in MN as [-> _]. lia. }
  clear MN. apply bind_inv in E as (o & CO & E). apply bind_inv in E as (f & CF & E). apply bind_inv in E as (a & A & E).
  apply bind_inv in E as (mx2 & X & E). apply bind_inv in E as (b & BB & E). apply bind_inv in E as (mn2 & N & E).
  apply i64_inv in A as [-> _]. apply i64_inv in X as [-> RX]. apply i64_inv in BB as [-> _]. apply i64_inv in N as [-> RN].
  pose proof (cast_i64_int _ _ _ IF CF); subst f. pose proof (cast_i64_int _ _ _ IO CO); subst o. clear CO CF IF IO.
  unfold smallest_type. cbv zeta. set (lo := raw_low signed len * F + O). set (hi := raw_high signed len * F + O).
  set (n := if signed then len - 1 else len) in *.
  (* the bounds the code computes with *)
  assert (BD : (hi = m * F + O /\ lo = mn * F + O /\ (lo < hi) /\ (signed = false -> lo = O)) \/
               (2 ^ 53 <= hi /\ 2 ^ 53 <= m * F + O /\ (signed = true -> lo <= - 2 ^ 53 /\ mn * F + O <= - 2 ^ 53) /\ (signed = false -> lo = mn * F + O /\ lo = O) /\ lo >= mn * F + O /\ hi <= m * F + O)).
  { unfold lo, hi, raw_low, n in *. destruct signed.
    - assert (PW : 0 < 2 ^ (len - 1)) by lia. unfold raw_high in *. destruct (len - 1 <=? 53).
      + left. subst m mn. split; [reflexivity|]. split; [f_equal; f_equal; lia|]. split; [nia|discriminate].
      + right. destruct TE as [TE T2]. subst m mn. rewrite Z.sub_add in *.
        assert (2 ^ (len - 1) <= 2 ^ (len - 1) * F) by nia. set (w := 2 ^ (len - 1)) in *. repeat split; try discriminate; nia.
    - unfold raw_high in *. assert (PW : 2 <= 2 ^ len) by (apply (Z.pow_le_mono_r 2 1 len); lia). destruct (len <=? 53).
      + left. subst m mn. split; [reflexivity|]. split; [reflexivity|]. split; [nia|lia].
      + right. destruct TE as [TE T2]. subst m mn. rewrite Z.sub_add in *. set (w := 2 ^ len) in *. repeat split; try discriminate; try nia. }
  clearbody lo hi. set (mx2 := m * F + O) in *. set (mn2 := mn * F + O) in *. clearbody mx2 mn2. clear TE L L63 M.
  unfold type_low, type_high. cbn [is_signed width Z.sub Z.add Z.opp Z.pos_sub Pos.pred_double Z.pow Z.pow_pos Pos.iter Z.mul Pos.mul].
  assert (SD : signed || (mx2 <? 0) || (mn2 <? 0) = signed || (lo <? 0)).
  { destruct signed; [reflexivity|]. cbn [orb]. destruct BD as [(-> & -> & H & _)|(H1 & H2 & _ & H3 & _)]; lia. }
  rewrite SD in E. destruct (signed || (lo <? 0)) eqn:D.
  - apply bind_inv in E as (p & Pp & E). apply bind_inv in E as (q & Qq & E). apply i64_inv in Pp as [-> PB]. apply i64_inv in Qq as [-> QB].
    destruct (Z.abs mx2 + 1 <? Z.abs mn2) eqn:C.
    + assert (K : ph = pick_type (Z.abs mn2) 1 signed_types max_signed I8) by congruence. clear E. subst ph. unfold pick_type, signed_types, max_signed.
      destruct BD as [(-> & -> & H & _)|(H1 & H2 & H3 & H4 & H5 & H6)];
        repeat match goal with |- context [if ?b then _ else _] => destruct b eqn:? end; try reflexivity; exfalso; destruct signed; lia.
    + assert (K : ph = pick_type (Z.abs mx2) 0 signed_types max_signed I8) by congruence. clear E. subst ph. unfold pick_type, signed_types, max_signed.
      destruct BD as [(-> & -> & H & _)|(H1 & H2 & H3 & H4 & H5 & H6)];
        repeat match goal with |- context [if ?b then _ else _] => destruct b eqn:? end; try reflexivity; exfalso; destruct signed; lia.
  - assert (K : ph = pick_type mx2 0 unsig_types max_unsig U8) by congruence. clear E. subst ph. unfold pick_type, unsig_types, max_unsig.
    destruct BD as [(-> & -> & H & _)|(H1 & H2 & H3 & H4 & H5 & H6)];
        repeat match goal with |- context [if ?b then _ else _] => destruct b eqn:? end; try reflexivity; exfalso; destruct signed; lia.
Qed.
