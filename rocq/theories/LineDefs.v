(** The lines of the macros of messages in a header. *)

From Coq Require Import ZArith NArith List String Ascii Bool Lia ZifyBool Permutation.
From Verif Require Import Base Dbl CSyntax CSem CRun Types Formatter SigPrinter Writer Settings
  MainGen App CodecSpec MsgSpec LexLemmas PPProof DriverSpec DriverProof HeaderSpec HeaderProof HeaderRun.
Import ListNotations.
Open Scope string_scope.

Lemma top_line : forall ps p ls l, at_top ps p -> part p ls -> In l ls -> In l (lines (sconcat ps)).
Proof.
  intros ps p ls l (a & b & -> & (la & PA & _) & (lb & PB & _)) P I.
  rewrite (part_lines _ _ (part_app _ _ _ _ PA (part_app _ _ _ _ P PB))). apply in_app_iff. right. apply in_app_iff. now left.
Qed.
Theorem define_lines : forall drv g d h c m, driver drv g d h c -> header_ok d -> In m (d_msgs d) ->
  In ("#define " ++ g_name m ++ "_IDE (" ++ pu (g_ext m) ++ "U)") (lines h) /\ In ("#define " ++ g_name m ++ "_DLC (" ++ pu (g_dlc m) ++ "U)") (lines h) /\
  In ("#define " ++ g_name m ++ "_CANID (" ++ px (g_id m) ++ "U)") (lines h) /\
  ((0 < g_cycle m)%Z -> In ("#define " ++ g_name m ++ "_CYC (" ++ decZ (swrap 32 (g_cycle m)) ++ "U)") (lines h)) /\
  (g_notempty m = true -> forall sg t v, In sg (g_sigs m) -> In (t, v) (s_valdefs sg) ->
     let x := s_name sg ++ "_" ++ g_name m ++ "_" ++ t in In ("#ifndef " ++ x) (lines h) /\ In ("#define " ++ x ++ " (" ++ decZ (swrap 32 v) ++ ")") (lines h)).
Proof.
  intros drv g d h c m DR HO IM. destruct (driver_header _ _ _ _ _ DR HO) as (HD & ps & ms & -> & PM & CN).
  assert (MO : msg_ok m) by (apply (dr_msgs _ _ _ _ _ DR _ IM)).
  assert (IMS : In m ms) by (eapply Permutation_in; [apply Permutation_sym; eauto|auto]).
  assert (C : forall k v, In (k, v) (consts m) -> In (const_line m k v) (lines (sconcat ps))).
  { intros k v I. apply (top_line _ _ _ _ (cn_const _ _ _ _ CN m k v IMS I) (part_raw _ (const_raw m k v MO I))). now left. }
  unfold const_line in C. split; [|split; [|split; [|split]]].
  - apply (C "_IDE" (" (" ++ pu (g_ext m) ++ "U)")%string). cbn. tauto.
  - apply (C "_DLC" (" (" ++ pu (g_dlc m) ++ "U)")%string). cbn. tauto.
  - apply (C "_CANID" (" (" ++ px (g_id m) ++ "U)")%string). cbn. tauto.
  - intros P. apply (C "_CYC" (" (" ++ decZ (swrap 32 (g_cycle m)) ++ "U)")%string). unfold consts. apply in_app_iff. right. replace (0 <? g_cycle m)%Z with true by lia. now left.
  - intros NE sg t v IS IV x. assert (SO : sig_ok (g_dlc m) sg) by now apply (mo_sigs _ MO).
    destruct (table_part m sg (t, v) MO SO (ho_sigs _ HO _ _ IM IS) IV) as [P _]. pose proof (cn_table _ _ _ _ CN m sg (t, v) IMS NE IS IV) as A.
    split; apply (top_line _ _ _ _ A P); [now left|right; now left].
Qed.
