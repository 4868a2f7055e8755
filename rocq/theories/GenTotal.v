(** The generator ends normally, or with the exception of the padding. *)

From Coq Require Import ZArith NArith List String Ascii Bool Lia ZifyBool Permutation.
From Verif Require Import Base Dbl CSyntax Types Formatter SigPrinter Writer Settings StaticText MainGen App
  CodecSpec MsgSpec SourceFun DriverSpec DriverProof CodecEnv StructSpec HeadTotal.
Import ListNotations.
Open Scope string_scope.

Lemma source_total : forall g ch xs, (forall x, In x xs -> forall sg, roll_sig (x_msg x) = Some sg -> (s_len sg < 31)%Z) ->
  exists t, main_source g ch xs = Ok t.
Proof.
  intros g ch xs H. assert (X : exists ms, map_res (msg_source g) xs = Ok ms).
  { induction xs as [|x r IH]; [eexists; reflexivity|].
    destruct IH as (ms & E); [intros; eapply H; eauto; now right|]. cbn [map_res].
    assert (Y : exists t, msg_source g x = Ok t).
    { unfold msg_source. destruct (negb _); [eexists; reflexivity|].
      unfold unpack_body, pack_struct_body, pack_array_body, pack_common.
      pose proof (H x (or_introl eq_refl)) as R. destruct (roll_sig (x_msg x)) as [sg|]; cbn [bind].
      - unfold roll_mask. specialize (R sg eq_refl). apply Z.ltb_lt in R. rewrite R. cbn [bind]. eexists. reflexivity.
      - eexists. reflexivity. }
    destruct Y as (t & ->). cbn [bind]. rewrite E. cbn [bind]. eexists. reflexivity. }
  destruct X as (ms & E). unfold main_source. rewrite E. cbn [bind]. eexists. reflexivity.
Qed.

Lemma generation : forall srt d s, sorts srt ->
  (forall m, In m (d_msgs d) -> msg_ok m /\ csm_first8 m /\ forall sg, In sg (g_sigs m) -> ints_fit sg) ->
  ((forall m, In m (d_msgs d) -> g_notempty m = true -> counter_fits m) /\ exists files, generate_main srt d s = Ok files) \/
  ((exists m, In m (d_msgs d) /\ g_notempty m = true /\ ~ counter_fits m) /\ generate_main srt d s = Throw "std::length_error").
Proof.
  intros srt d s SR OK. destruct (map_res_loaded (d_msgs d)) as (xs0 & LM & F0).
  { intros m I. destruct (OK m I) as (A & B & _). now split. }
  unfold generate_main. rewrite load_messages_map, LM. cbn [bind].
  set (xs := srt ciexpr (fun x => g_id (x_msg x)) xs0) in *.
  assert (PX : Permutation xs xs0) by apply SR.
  destruct (loaded_self _ _ F0) as [FS EM].
  assert (PM : Permutation (map x_msg xs) (d_msgs d)) by (rewrite EM; now apply Permutation_map).
  assert (IN : forall x, In x xs -> In (x_msg x) (d_msgs d)).
  { intros x I. eapply Permutation_in; [exact PM|]. now apply in_map. }
  assert (IB : forall m, In m (d_msgs d) -> exists x, In x xs /\ x_msg x = m).
  { intros m I. apply (Permutation_in _ (Permutation_sym PM)) in I. apply in_map_iff in I. destruct I as (x & E & I). eauto. }
  destruct (source_total (st_g s) (f_coreh (st_f s)) xs) as (sc & ES).
  { intros x I sg R. destruct (OK _ (IN x I)) as (MO & _). now apply (mo_roll _ MO). }
  destruct (header_total (st_g s) (d_maxdlc d) xs) as [[A (h & EH)]|[(x & I & N & A) EH]].
  - intros x I _ sg S. destruct (OK _ (IN x I)) as (MO & _ & IF). pose proof (ok_len _ _ (mo_sigs _ MO sg S)). split; [lia|auto].
  - left. split.
    + intros m I N. destruct (IB m I) as (x & J & <-). auto.
    + rewrite EH. cbn [bind]. rewrite ES. cbn [bind]. eexists. reflexivity.
  - right. split; [eauto|]. rewrite EH. reflexivity.
Qed.
