(** A header without clashing names: each of its macros is defined once. *)

From Coq Require Import ZArith NArith List String Ascii Bool Lia ZifyBool Permutation.
From Verif Require Import Base Dbl CSyntax CSem CRun Types Formatter SigPrinter Writer Settings
  MainGen App CodecSpec MsgSpec LexLemmas PPProof SourceFun DriverSpec DriverProof HeaderSpec HeaderProof HeaderRun CodecEnv NamesSpec HeaderNames.
Import ListNotations.
Open Scope string_scope.

Lemma count_perm : forall (a b : list string) x, Permutation a b -> count_occ string_dec a x = count_occ string_dec b x.
Proof. intros a b x P. apply (Permutation_count_occ string_dec). exact P. Qed.
Lemma names_once : forall drv g d h c x, driver drv g d h c -> header_ok d -> NoDup (header_names (str_toupper drv) d) ->
  In x (header_names (str_toupper drv) d) -> once x h.
Proof.
  intros drv g d h c x DR HO ND I. unfold once. rewrite (count_perm _ _ x (driver_names _ _ _ _ _ DR HO)).
  now apply NoDup_count_occ'.
Qed.
Lemma driver_DRV : forall drv g d h c, driver drv g d h c ->
  n_DRV g = str_toupper drv /\ n_verhi g = "VER_" ++ str_toupper drv ++ "_MAJ" /\ n_verlow g = "VER_" ++ str_toupper drv ++ "_MIN".
Proof.
  intros drv g d h c [RUN [DI DL] MS ND].
  destruct RUN as (srt & out & date & dbc & hi & low & nc & ni & nf & rest & SR & DT & DB & HI & LO & -> & GM).
  destruct (configure_names drv out (common_info date) (driver_info dbc) hi low nc ni nf DL) as (A & B & C).
  rewrite <- C. auto.
Qed.

Lemma global_in : forall D d x, In x ["_VALIDATE_DLC"; "_MAX_DLC_VALUE"; "_INITIAL_BYTE_VALUE"] -> In (D ++ x) (header_names D d).
Proof.
  intros D d x I. unfold header_names. apply in_app_iff. left. cbn [In] in *.
  destruct I as [<-|[<-|[<-|[]]]]; tauto.
Qed.
Lemma version_in : forall D d, In ("VER_" ++ D ++ "_MAJ") (header_names D d) /\ In ("VER_" ++ D ++ "_MIN") (header_names D d).
Proof. intros D d. unfold header_names. split; apply in_app_iff; left; cbn [In]; tauto. Qed.
Lemma id_in : forall D d m x, In m (d_msgs d) -> In x (id_names m) -> In x (header_names D d).
Proof.
  intros D d m x I J. unfold header_names. apply in_app_iff. right. apply in_app_iff. left. apply in_flat_map.
  exists m. split; [exact I|]. apply in_app_iff. now left.
Qed.
Lemma entry_in : forall D d m x, In m (d_msgs d) -> In x (entry_names m) -> In x (header_names D d).
Proof.
  intros D d m x I J. unfold header_names. apply in_app_iff. right. apply in_app_iff. left. apply in_flat_map.
  exists m. split; [exact I|]. apply in_app_iff. now right.
Qed.
Lemma conv_in : forall D d m sg x, In m (d_msgs d) -> g_notempty m = true -> In sg (g_sigs m) -> s_simple sg = false ->
  In x (conv_names D (s_name sg)) -> In x (header_names D d).
Proof.
  intros D d m sg x I N S P J. unfold header_names. apply in_app_iff. right. apply in_app_iff. right. apply in_flat_map.
  exists (s_name sg). split; [|exact J]. apply nodup_In, in_flat_map. exists m. split; [exact I|]. unfold scaled. rewrite N.
  apply in_map. apply filter_In. split; [exact S|]. now rewrite P.
Qed.

(** ** Names of the header and local names of the functions *)

(** every macro name has an underscore with something on both sides *)
Definition inner (x : string) : Prop := exists a b, x = a ++ "_" ++ b /\ a <> "" /\ b <> "".
Lemma inner_names : forall drv g d h c x, driver drv g d h c -> In x (header_names (str_toupper drv) d) -> inner x.
Proof.
  intros drv g d h c x [_ [DI DL] MS _] I. set (D := str_toupper drv) in *.
  assert (ND : D <> "") by (intros X; pose proof (upper_ident _ DI) as U; fold D in U; rewrite X in U; discriminate).
  unfold header_names in I. apply in_app_iff in I. destruct I as [I|I].
  - cbn [In] in I. destruct I as [<-|[<-|[<-|[<-|[<-|[]]]]]].
    + exists "VER", (D ++ "_MAJ"). split; [reflexivity|]. split; [discriminate|]. destruct D; discriminate.
    + exists "VER", (D ++ "_MIN"). split; [reflexivity|]. split; [discriminate|]. destruct D; discriminate.
    + exists D, "MAX_DLC_VALUE". split; [reflexivity|]. split; [exact ND|discriminate].
    + exists D, "VALIDATE_DLC". split; [reflexivity|]. split; [exact ND|discriminate].
    + exists D, "INITIAL_BYTE_VALUE". split; [reflexivity|]. split; [exact ND|discriminate].
  - apply in_app_iff in I. destruct I as [I|I].
    + apply in_flat_map in I. destruct I as (m & IM & J). destruct (MS m IM) as (MO & _).
      assert (NG : g_name m <> "") by (intros X; pose proof (mo_name _ MO) as U; rewrite X in U; discriminate).
      apply in_app_iff in J. destruct J as [J|J].
      * unfold id_names in J. apply in_app_iff in J. destruct J as [J|J].
        -- cbn [In] in J. destruct J as [<-|[<-|[<-|[]]]];
             [exists (g_name m), "IDE"|exists (g_name m), "DLC"|exists (g_name m), "CANID"]; (split; [reflexivity|]; split; [exact NG|discriminate]).
        -- destruct (0 <? g_cycle m)%Z; [|contradiction]. destruct J as [<-|[]]. exists (g_name m), "CYC".
           split; [reflexivity|]. split; [exact NG|discriminate].
      * unfold entry_names in J. destruct (g_notempty m); [|contradiction]. apply in_flat_map in J. destruct J as (sg & IS & J).
        apply in_map_iff in J. destruct J as (p & <- & J).
        assert (NS : s_name sg <> "") by (intros X; pose proof (ok_name _ _ (mo_sigs _ MO sg IS)) as U; rewrite X in U; discriminate).
        exists (s_name sg), (g_name m ++ "_" ++ fst p). split; [reflexivity|]. split; [exact NS|]. destruct (g_name m); discriminate.
    + apply in_flat_map in I. destruct I as (y & IY & J). unfold conv_names in J. cbn [In] in J.
      destruct J as [<-|[<-|[<-|[]]]];
        [exists D, (y ++ "_CovFactor")|exists D, (y ++ "_toS")|exists D, (y ++ "_fromS")]; (split; [reflexivity|]; split; [exact ND|destruct y; discriminate]).
Qed.
Lemma inner_local : forall x, In x ["m"; "val"; "bits"; "i"; "dlc_"] -> ~ inner x.
Proof.
  intros x I (a & b & E & NA & NB). cbn [In] in I.
  destruct I as [<-|[<-|[<-|[<-|[<-|[]]]]]];
    (destruct a as [|? [|? [|? [|? [|? a]]]]]; cbn [String.append] in E; congruence).
Qed.

Lemma guard_none : forall x y s M, lookup x M = None -> x <> y -> fst (pp_define s) = y -> lookup x (guard y s M) = None.
Proof.
  intros x y s M L N F. unfold guard. destruct (defined y M); [exact L|]. destruct (pp_define s) as [z mc]. cbn [fst] in F. subst z.
  cbn [lookup]. destruct (String.eqb_spec x y); [contradiction|exact L].
Qed.

Theorem names_program : forall e, driver (e_drv e) (e_g e) (e_db e) (e_h e) (e_src e) -> header_ok (e_db e) ->
  NoDup ("__ext_sig__" :: header_names (str_toupper (e_drv e)) (e_db e)) -> locals_free (e_conf e) -> program e.
Proof.
  intros e DR HO ND LF. inversion ND as [|? ? NE ND']. subst. destruct (driver_DRV _ _ _ _ _ DR) as (D1 & _ & _). constructor; auto.
  - intros x I. unfold e_macros, e_unit. destruct (driver_unit _ _ _ _ _ (after_header (e_conf e) (e_h e)) DR) as (ms & coreh & _ & _ & _ & _ & _ & CP).
    rewrite CP. cbn [u_macros].
    assert (L : lookup x (after_header (e_conf e) (e_h e)) = None).
    { rewrite not_defined; [now apply LF|]. intros J. apply (Permutation_in _ (driver_names _ _ _ _ _ DR HO)) in J.
      cbn [In] in I. destruct I as [<-|[<-|[<-|[<-|[<-|[<-|[]]]]]]]; try (apply (inner_names _ _ _ _ _ _ DR) in J; revert J; apply inner_local; cbn [In]; tauto).
      contradiction. }
    unfold with_defaults. apply guard_none; [apply guard_none; [exact L| |reflexivity]| |reflexivity]; cbn [In] in I;
      intros X; rewrite X in I; repeat (destruct I as [I|I]; [discriminate|]); exact I.
  - intros x I. rewrite D1. apply (names_once _ _ _ _ _ _ DR HO ND'). now apply global_in.
  - intros msg x IM I. apply (names_once _ _ _ _ _ _ DR HO ND'). apply (id_in _ _ msg); [exact IM|]. unfold id_names.
    apply in_app_iff. left. cbn [In] in *. destruct I as [<-|[<-|[<-|[]]]]; auto.
Qed.
