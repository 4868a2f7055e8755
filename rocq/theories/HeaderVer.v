(** The version macros keep their values: nothing behind them in the header defines them again. *)

From Coq Require Import ZArith NArith List String Ascii Bool Lia ZifyBool Permutation.
From Verif Require Import Base Dbl CSyntax CSem CRun Types Formatter SigPrinter Writer Settings
  MainGen App CodecSpec MsgSpec LexLemmas BitLemmas CSemLemmas Chunks UnpackProof PPProof BodyLemmas
  UnpackBody UnpackFun PackProof PackBody PackFun SourceFun DriverSpec DriverProof HeaderSpec HeaderProof HeaderRun HeaderTables NamesSpec HeaderNames NamesThms HeaderFirst.
Import ListNotations.
Open Scope string_scope.

(** names are told apart by their last letters *)
Definition ends_in (x : string) (cs : list ascii) : Prop := exists c, last_char x = Some c /\ In c cs.
Lemma ends_differ : forall x y a b, ends_in x a -> ends_in y b -> (forall c, In c a -> ~ In c b) -> x <> y.
Proof. intros x y a b (c & A & I) (c' & B & J) D ->. rewrite A in B. injection B as ->. exact (D _ I J). Qed.
Lemma ends_more : forall x s cs, ends_in s cs -> s <> "" -> ends_in (x ++ s) cs.
Proof. intros x s cs (c & L & I) N. exists c. split; [|exact I]. now rewrite LexLemmas.last_char_app. Qed.
Lemma app_some : forall a b, b <> "" -> a ++ b <> "".
Proof. intros [|] b N; cbn; [exact N|discriminate]. Qed.
Ltac ends := match goal with
  | |- ends_in (_ ++ _) _ => apply ends_more; [ends|repeat (apply app_some); discriminate]
  | |- ends_in _ _ => eexists; split; [reflexivity|cbn; auto 8] end.
Definition other_ends : list ascii := ["E"; "C"; "D"; "r"; "S"]%char.
Lemma ends_apart : forall y x, ends_in y other_ends -> ends_in x ["J"; "N"]%char -> y <> x.
Proof.
  intros y x A B. apply (ends_differ _ _ _ _ A B). intros c I J. cbn in J. destruct J as [<-|[<-|[]]]; cbn in I;
    repeat destruct I as [I|I]; try contradiction; discriminate I.
Qed.
Lemma id_ends : forall m x, In x (id_names m) -> ends_in x other_ends.
Proof.
  intros m x I. unfold id_names in I. apply in_app_iff in I as [I|I].
  - repeat destruct I as [<-|I]; try contradiction; ends.
  - destruct (0 <? g_cycle m)%Z; [|contradiction]. destruct I as [<-|[]]. ends.
Qed.
Lemma conv_ends : forall D y x, In x (conv_names D y) -> ends_in x other_ends.
Proof.
  intros D y x I. unfold conv_names in I.
  repeat destruct I as [<-|I]; try contradiction; ends.
Qed.

Lemma once_first : forall a b p q r : string, a <> b -> p <> a -> q <> a -> r <> a -> count_occ string_dec [a; b; p; q; r] a = 1%nat.
Proof. intros a b p q r A B C D. rewrite count_occ_cons_eq by reflexivity. now rewrite !count_occ_cons_neq by auto. Qed.
Lemma once_second : forall a b p q r : string, a <> b -> p <> b -> q <> b -> r <> b -> count_occ string_dec [a; b; p; q; r] b = 1%nat.
Proof. intros a b p q r A B C D. rewrite count_occ_cons_neq by auto. rewrite count_occ_cons_eq by reflexivity. now rewrite !count_occ_cons_neq by auto. Qed.

Lemma version_in_header : forall drv g d h c conf x v, driver drv g d h c -> header_ok d ->
  (x = n_verhi g /\ v = n_hi g \/ x = n_verlow g /\ v = n_low g) -> const_macro (after_header conf h) x v.
Proof.
  intros drv g d h c conf x v DR HO XV. destruct (driver_DRV _ _ _ _ _ DR) as (DD & VH & VL). destruct DR as [RUN [DI DL] MS ND].
  destruct RUN as (srt & out & date & dbc & hi & low & nc & ni & nf & rest & SR & DT & DB & HI & LO & G & GM).
  assert (LU : String.length (str_toupper drv) = String.length drv) by apply len_map.
  assert (XX : (String.length (n_verhi g) <= 1200 /\ String.length (n_verlow g) <= 1200)%nat /\ n_hi g = hi /\ n_low g = low).
  { rewrite G. unfold configure. cbn [st_g n_verhi n_verlow n_hi n_low].
    rewrite !tmpb_short by (rewrite !app_len, ?LU; cbn [String.length]; lia). rewrite !app_len, LU. cbn [String.length]. lia. }
  destruct XX as ((L1 & L2) & E1 & E2).
  set (s := configure drv out (common_info date) (driver_info dbc) hi low nc ni nf) in *.
  assert (EO : forall m, In m (d_msgs d) -> emit_ok m).
  { intros m I. destruct (MS m I) as (A & B & C). constructor; auto. now apply short_few. }
  destruct (map_res_loaded (d_msgs d)) as (xs0 & LM & F0).
  { intros m I. split; apply (EO m I). }
  unfold generate_main in GM. rewrite load_messages_map, LM in GM. cbn [bind] in GM.
  set (xs := srt ciexpr (fun x => g_id (x_msg x)) xs0) in *.
  assert (PX : Permutation xs xs0) by apply SR.
  destruct (loaded_self _ _ F0) as [FS EM].
  assert (PM : Permutation (map x_msg xs) (d_msgs d)) by (rewrite EM; now apply Permutation_map).
  assert (HK : forall x, In x xs -> hmsg_ok (x_msg x)).
  { intros y I. assert (IM : In (x_msg y) (d_msgs d)) by (eapply Permutation_in; [exact PM|now apply in_map]).
    constructor; [apply (MS _ IM)|]. intros sg S. eapply ho_sigs; eauto. }
  pose proof (configure_head drv out date dbc hi low nc ni nf DI DL DT DB HI LO) as HD. fold s in HD.
  rewrite <- G in *.
  destruct (main_header g (d_maxdlc d) xs) as [hd| |] eqn:EH; cbn [bind] in GM; try discriminate.
  destruct (main_source g (f_coreh (st_f s)) xs) as [sc| |]; cbn [bind] in GM; try discriminate.
  cbn [List.app] in GM. injection GM as <- _ _.
  unfold main_header in EH. destruct (msg_headers g [] xs) as [t| |] eqn:ET; cbn [bind] in EH; try discriminate. apply Ok_inj in EH. subst hd.
  assert (XE : ends_in x ["J"; "N"]%char).
  { destruct XV as [[-> _]|[-> _]]; rewrite ?VH, ?VL; ends. }
  assert (NO : forall y, ends_in y other_ends -> y <> x).
  { intros y E. exact (ends_apart _ _ E XE). }
  destruct (head_top g (d_maxdlc d) HD ltac:(pose proof (ho_dlc d HO); lia)) as ((lt & PT & BT) & TH & TL & _).
  destruct (head_dp g (d_maxdlc d) HD ltac:(pose proof (ho_dlc d HO); lia)) as (lt' & PT' & DT').
  assert (lt' = lt) by (rewrite <- (part_lines _ _ PT), <- (part_lines _ _ PT'); reflexivity). subst lt'.
  assert (ON : once x (sconcat (header_top g (d_maxdlc d)))).
  { unfold once. rewrite (part_lines _ _ PT), DT'.
    assert (E3 : forall y, In y [maxdlc_name g; validate_name g; initial_name g] -> y <> x).
    { intros y I. apply NO. unfold maxdlc_name, validate_name, initial_name in I. repeat destruct I as [<-|I]; try contradiction; ends. }
    assert (HL : n_verhi g <> n_verlow g).
    { rewrite VH, VL. apply (ends_differ _ _ ["J"%char] ["N"%char]); [ends|ends|].
      intros c0 [<-|[]] [J|[]]. discriminate. }
    pose proof (E3 _ (or_introl eq_refl)) as N1. pose proof (E3 _ (or_intror (or_introl eq_refl))) as N2. pose proof (E3 _ (or_intror (or_intror (or_introl eq_refl)))) as N3.
    destruct XV as [[-> _]|[-> _]]; [apply once_first|apply once_second]; auto. }
  assert (TC : const_macro (after_header conf (sconcat (header_top g (d_maxdlc d)))) x v).
  { destruct (hd_ver _ HD) as [I1 I2]. destruct XV as [[-> ->]|[-> ->]]; apply top_const; auto; lia. }
  assert (ST : settles x t (lookup x (flat_map msg_entries (map x_msg xs)))).
  { apply (headers_settles x g xs [] t HD HK ET). intros y I. split.
    - intros J. apply (NO x); [|reflexivity]. now apply (id_ends (x_msg y)).
    - intros z Z J. apply (NO x); [|reflexivity]. now apply (conv_ends (n_DRV g) z). }
  assert (B : settles x ([L "// Function signatures"; nls 1] ++ List.concat (map (fun x => msg_prototypes g (x_msg x)) xs) ++ [L cpp_close]) None).
  { apply (settles_other x _ []); [| |auto].
    - apply bpart_app; [apply bpart_cons; [lit|apply bp_nls]|]. apply bpart_app; [|apply cpp_bp].
      apply bpart_concat. apply Forall_map. apply Forall_forall. intros y I. apply protos_bp; [apply HD|apply HK; auto].
    - apply dp_app0; [apply dp_cons0; [dlit|apply dp_nls]|]. apply dp_app0; [|apply dp_cpp].
      apply dp_concat0. apply Forall_map. apply Forall_forall. intros y I. apply protos_dp; [apply HD|apply HK; auto]. }
  destruct (settles_app _ _ _ _ _ ST B) as (ls & P & _ & Q).
  destruct TC as (b & LK & EV). exists b. split; [|exact EV].
  unfold after_header, pp_run in *. rewrite (part_lines _ _ PT) in LK. rewrite (part_lines _ _ (part_app _ _ _ _ PT P)).
  change (fold_left pp_line ?l ?s) with (runs s l) in *. rewrite runs_app, Q; [now rewrite LK|].
  rewrite (active_stack _ {| pp_macros := conf; pp_stack := []; pp_out := [] |}); [reflexivity|apply BT].
Qed.
Theorem version_kept : forall drv g d h c conf, driver drv g d h c -> header_ok d ->
  const_macro (after_header conf h) (n_verhi g) (n_hi g) /\ const_macro (after_header conf h) (n_verlow g) (n_low g).
Proof. intros drv g d h c conf DR HO. split; eapply version_in_header; eauto. Qed.
