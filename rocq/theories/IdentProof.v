(** The identification of declared messages: macros of the header and what Pack reports. *)

From Coq Require Import ZArith NArith List String Ascii Bool Lia ZifyBool Permutation.
From Verif Require Import Base Dbl CSyntax CSem CRun Types Formatter Settings MainGen LineParser Scanner App LexLemmas CodecSpec MsgSpec DriverSpec HeaderSpec HeaderProof HeaderNames HeaderRun HeaderTables HeaderCycle
  ScanSpec ScanThms SigSpec NamesSpec NamesThms CodecEnv CodecThms CodecFacts DeclSpec DeclThms.
Import ListNotations.
Open Scope string_scope.

Lemma names_in : forall srt bs e x, project srt bs e -> In x (header_names (str_toupper (e_drv e)) (e_db e)) -> once x (e_h e).
Proof.
  intros srt bs e x P I. eapply names_once; [exact (pj_driver _ _ _ P)|exact (pj_header _ _ _ P)| |exact I].
  pose proof (pj_macros _ _ _ P) as N. now inversion N.
Qed.
Theorem declared_consts : forall srt bs e md, project srt bs e -> In md (file_msgs bs) ->
  let M := after_header (e_conf e) (e_h e) in
  const_macro M (md_name md ++ "_DLC") (Z.of_N (md_dlc md)) /\ const_macro M (md_name md ++ "_CANID") (frame_id md) /\
  const_macro M (md_name md ++ "_IDE") (if N.testbit (md_id md) 31 then 1 else 0)%Z.
Proof.
  intros srt bs e md P I M. destruct (forall2_in_l _ _ _ _ _ _ (pj_scanned _ _ _ P) I) as (m & J & S). pose proof (sc_read _ _ S) as R.
  assert (O : forall x, In x (id_names m) -> once x (e_h e)) by (intros x X; apply (names_in _ _ _ _ P), (id_in _ _ m); assumption).
  destruct (header_consts _ _ _ _ _ (e_conf e) m (pj_driver _ _ _ P) (pj_header _ _ _ P) J) as [A B C].
  1-3: apply O; unfold id_names; apply in_app_iff; left; cbn [In]; tauto.
  rewrite (rm_name _ _ R) in *. rewrite (rm_dlc _ _ R) in A. rewrite (rm_id _ _ R) in B. rewrite (rm_ext _ _ R) in C. auto.
Qed.
Theorem declared_cycle : forall srt bs e es a k n b md, project srt bs e -> read_entries srt (file_text bs) (e_db e) es -> In md (file_msgs bs) ->
  es = (a ++ ECycle k n :: b)%list -> plain_id k = plain_id (md_id md) -> (forall k' c, In (ECycle k' c) b -> plain_id k' <> plain_id k) -> (0 < n < 2 ^ 31)%N ->
  const_macro (after_header (e_conf e) (e_h e)) (md_name md ++ "_CYC") (Z.of_N n).
Proof.
  intros srt bs e es a k n b md P RE I E ID LAST NB. destruct (forall2_in_l _ _ _ _ _ _ (pj_scanned _ _ _ P) I) as (m & J & S). pose proof (sc_read _ _ S) as R.
  assert (CY : g_cycle m = Z.of_N n).
  { rewrite (cycle_set _ _ _ _ _ _ _ _ _ RE E LAST J); [apply Z.mod_small; change (2 ^ 31)%N with 2147483648%N in NB; lia|rewrite (rm_id _ _ R), ID; reflexivity]. }
  rewrite <- (rm_name _ _ R), <- CY. apply (header_cycle _ _ _ _ _ _ m (pj_driver _ _ _ P) (pj_header _ _ _ P) J); [lia|].
  apply (names_in _ _ _ _ P), (id_in _ _ m); [exact J|]. unfold id_names. replace (0 <? g_cycle m)%Z with true by lia. apply in_app_iff. right. now left.
Qed.
Theorem declared_reports : forall srt bs e md bits mx data hash mm, project srt bs e -> floats_on e = false ->
  In md (file_msgs bs) -> md_sigs md <> [] -> pack_call e bits md mx data mm -> computing e bits md hash mm ->
  exists mm', pack_decl e md mm = Ok (mm', Some (VI U32 (frame_id md))) /\
    let ide := (if N.testbit (md_id md) 31 then 1 else 0)%Z in
    if struct_on e
    then int_at mm' "cframe->MsgId" = Some (frame_id md) /\ int_at mm' "cframe->DLC" = Some (Z.of_N (md_dlc md)) /\ int_at mm' "cframe->IDE" = Some ide
    else int_at mm' "*_len" = Some (Z.of_N (md_dlc md)) /\ int_at mm' "*_ide" = Some ide.
Proof.
  intros srt bs e md bits mx data hash mm P B I NE U CG. destruct (project_msg _ _ _ _ P I NE) as (m & J & S & N). pose proof (sc_read _ _ S) as R.
  pose proof (sends_decl _ _ _ _ _ _ _ _ _ _ P B I S J N U CG) as SN. destruct (identity _ _ _ _ _ _ _ _ _ SN) as (m1 & RUN & X).
  exists m1. split; [unfold pack_decl, frame_id; unfold pack, pack_name in RUN; rewrite (rm_name _ _ R), (rm_id _ _ R) in RUN; exact RUN|].
  cbv zeta. rewrite (rm_id _ _ R), (rm_dlc _ _ R), (rm_ext _ _ R) in X. exact X.
Qed.

(** the value of the macro, also of cycle times from 2^31 *)
Theorem declared_cycle_value : forall srt bs e es a k n b md, project srt bs e -> read_entries srt (file_text bs) (e_db e) es -> In md (file_msgs bs) ->
  es = (a ++ ECycle k n :: b)%list -> plain_id k = plain_id (md_id md) -> (forall k' c, In (ECycle k' c) b -> plain_id k' <> plain_id k) -> (n mod 2 ^ 32 <> 0)%N ->
  forall j C mm, c_macros C = after_header (e_conf e) (e_h e) -> eval (S j) C mm [] (EId (md_name md ++ "_CYC")) = Ok (VI U32 (Z.of_N (n mod 2 ^ 32))).
Proof.
  intros srt bs e es a k n b md P RE I E ID LAST NB j C mm EM. destruct (forall2_in_l _ _ _ _ _ _ (pj_scanned _ _ _ P) I) as (m & J & S). pose proof (sc_read _ _ S) as R.
  assert (CY : g_cycle m = Z.of_N (n mod 2 ^ 32)).
  { rewrite (cycle_set _ _ _ _ _ _ _ _ _ RE E LAST J); [|rewrite (rm_id _ _ R), ID; reflexivity]. rewrite N2Z.inj_mod. reflexivity. }
  assert (BD : (n mod 2 ^ 32 < 2 ^ 32)%N) by (apply N.mod_lt; discriminate). change (2 ^ 32)%N with 4294967296%N in *.
  assert (ON : once (g_name m ++ "_CYC") (e_h e)).
  { apply (names_in _ _ _ _ P), (id_in _ _ m); [exact J|]. unfold id_names. replace (0 <? g_cycle m)%Z with true by lia. apply in_app_iff. right. now left. }
  rewrite <- CY, <- (rm_name _ _ R). apply (header_cycle_value _ _ _ _ _ (e_conf e) m (pj_driver _ _ _ P) (pj_header _ _ _ P) J); [change (2 ^ 32)%Z with 4294967296%Z; lia|exact ON|exact EM].
Qed.

Lemma flat_once : forall A (f : A -> list string) l a b x, NoDup (flat_map f l) -> In a l -> In b l -> In x (f a) -> In x (f b) -> a = b.
Proof.
  intros A f l a b x. induction l as [|y l IH]; intros N IA IB XA XB; [contradiction|]. cbn [flat_map] in N.
  assert (D : forall z, In z (f y) -> ~ In z (flat_map f l)).
  { clear - N. induction (f y) as [|u r IHr]; intros z [].
    - subst u. cbn in N. inversion N as [|? ? NI _]. intros X. apply NI, in_app_iff. now right.
    - cbn in N. inversion N. now apply IHr. }
  assert (N' : NoDup (flat_map f l)) by (clear - N; induction (f y) as [|u r IHr]; [exact N|]; cbn in N; inversion N; auto).
  destruct IA as [->|IA], IB as [->|IB]; auto.
  - exfalso. apply (D x XA). apply in_flat_map. eauto.
  - exfalso. apply (D x XB). apply in_flat_map. eauto.
Qed.

Lemma same_suffix : forall s t a b : string, String.length s = String.length t -> (a ++ s = b ++ t)%string -> a = b /\ s = t.
Proof.
  intros s t a. induction a as [|x a IH]; intros b L E.
  - destruct b as [|y b]; [auto|]. exfalso. cbn [append] in E. assert (X : String.length s = String.length (String y (b ++ t))) by now rewrite E. cbn in X. rewrite LexLemmas.app_len in X. lia.
  - destruct b as [|y b]; cbn [append] in E.
    + exfalso. assert (X : String.length t = String.length (String x (a ++ s))) by now rewrite E. cbn in X. rewrite LexLemmas.app_len in X. lia.
    + injection E as -> E. destruct (IH b L E) as [-> ->]. auto.
Qed.
Lemma nodup_parts : forall (a b : list string), NoDup (a ++ b) -> NoDup a /\ NoDup b.
Proof.
  induction a as [|x a IH]; intros b N; [split; [constructor|exact N]|]. cbn in N. inversion N as [|? ? NI N']. destruct (IH b N') as [A B].
  split; [|exact B]. constructor; [|exact A]. intros X. apply NI, in_app_iff. now left.
Qed.
(** no cycle time, no macro *)
Theorem declared_uncycled : forall srt bs e es md, project srt bs e -> read_entries srt (file_text bs) (e_db e) es -> In md (file_msgs bs) ->
  (forall k c, In (ECycle k c) es -> plain_id k <> plain_id (md_id md)) ->
  (forall m, In m (d_msgs (e_db e)) -> ~ In (md_name md ++ "_CYC") (entry_names m)) ->
  lookup (md_name md ++ "_CYC") (after_header (e_conf e) (e_h e)) = lookup (md_name md ++ "_CYC") (e_conf e).
Proof.
  intros srt bs e es md P RE I NC NE. destruct (forall2_in_l _ _ _ _ _ _ (pj_scanned _ _ _ P) I) as (m & J & S). pose proof (sc_read _ _ S) as R.
  assert (CY : g_cycle m = 0%Z).
  { eapply cycle_unset; [exact RE|exact J|]. intros k c IK X. rewrite (rm_id _ _ R) in X. apply (NC k c IK). apply N2Z.inj. exact X. }
  apply not_defined. intros D. apply (Permutation_in _ (driver_names _ _ _ _ _ (pj_driver _ _ _ P) (pj_header _ _ _ P))) in D.
  assert (NS : forall a b t : string, String.length t = 4%nat -> t <> "_CYC" -> (a ++ "_CYC" = b ++ t)%string -> False) by (intros a b t L T X; apply same_suffix in X; [|now rewrite L]; destruct X as [_ X]; congruence).
  pose proof (pj_macros _ _ _ P) as ND. inversion ND as [|? ? _ ND']. subst. unfold header_names in D, ND'. apply in_app_iff in D as [D|D].
  - set (U := str_toupper (e_drv e)) in *. cbn [In] in D. destruct D as [D|[D|[D|[D|[D|[]]]]]]; symmetry in D.
    + apply (NS (md_name md) ("VER_" ++ U)%string "_MAJ"); [reflexivity|discriminate|now rewrite !LexLemmas.app_assoc].
    + apply (NS (md_name md) ("VER_" ++ U)%string "_MIN"); [reflexivity|discriminate|now rewrite !LexLemmas.app_assoc].
    + apply (NS (md_name md) (U ++ "_MAX_DLC_V")%string "ALUE"); [reflexivity|discriminate|now rewrite !LexLemmas.app_assoc].
    + apply (NS (md_name md) (U ++ "_VALIDATE")%string "_DLC"); [reflexivity|discriminate|now rewrite !LexLemmas.app_assoc].
    + apply (NS (md_name md) (U ++ "_INITIAL_BYTE_V")%string "ALUE"); [reflexivity|discriminate|now rewrite !LexLemmas.app_assoc].
  - apply in_app_iff in D as [D|D].
    + apply in_flat_map in D as (m' & J' & D). apply in_app_iff in D as [D|D]; [|exact (NE m' J' D)]. unfold id_names in D. apply in_app_iff in D as [D|D].
      * cbn [In] in D. destruct D as [D|[D|[D|[]]]]; symmetry in D.
        -- apply (NS (md_name md) (g_name m')%string "_IDE"); [reflexivity|discriminate|exact D].
        -- apply (NS (md_name md) (g_name m')%string "_DLC"); [reflexivity|discriminate|exact D].
        -- apply (NS (md_name md) (g_name m' ++ "_C")%string "ANID"); [reflexivity|discriminate|now rewrite !LexLemmas.app_assoc].
      * destruct (0 <? g_cycle m')%Z eqn:C; [|contradiction]. destruct D as [D|[]]. apply same_suffix in D; [|reflexivity]. destruct D as [D _].
        assert (m' = m); [|subst m'; rewrite CY in C; discriminate].
        assert (ND2 : NoDup (flat_map (fun m => id_names m ++ entry_names m)%list (d_msgs (e_db e)))) by (apply nodup_parts in ND'; destruct ND' as [_ ND']; now apply nodup_parts in ND').
        apply (flat_once _ _ _ m' m (md_name md ++ "_IDE")%string ND2 J' J); apply in_app_iff; left; unfold id_names; apply in_app_iff; left; left; [now rewrite D|now rewrite (rm_name _ _ R)].
    + apply in_flat_map in D as (x & _ & D). unfold conv_names in D. set (U := str_toupper (e_drv e)) in *. cbn [In] in D. destruct D as [D|[D|[D|[]]]]; symmetry in D.
      * apply (NS (md_name md) (U ++ "_" ++ x ++ "_CovFa")%string "ctor"); [reflexivity|discriminate|now rewrite !LexLemmas.app_assoc].
      * apply (NS (md_name md) (U ++ "_" ++ x)%string "_toS"); [reflexivity|discriminate|now rewrite !LexLemmas.app_assoc].
      * apply (NS (md_name md) (U ++ "_" ++ x ++ "_f")%string "romS"); [reflexivity|discriminate|now rewrite !LexLemmas.app_assoc].
Qed.
