(** Whole runs of the tool: the files afterwards are the programs that the other theorems talk about. *)

From Coq Require Import ZArith NArith List String Ascii Bool Lia ZifyBool Permutation Sorted.
From Verif Require Import Base Dbl CSyntax CSem CRun Types Formatter Settings MainGen UtilGen LineParser Scanner Options FsModel App LexLemmas PPProof CodecSpec MsgSpec DriverSpec
  HeaderSpec StructSpec ScanSpec SigSpec NamesSpec CodecEnv CodecThms FsSpec FsNames FsProof CliProof FsThms UtilSpec UtilThms ScanPass1 ScanThms DeclSpec DeclThms DeclTotal PhysSpec PhysDecl RecvSpec RecvDecl RunSpec.
Import ListNotations.
Open Scope string_scope.

(** *** Texts of the files *)
Lemma app_left : forall a b c : string, a ++ b = a ++ c -> b = c.
Proof. induction a as [|x a IH]; intros b c E; [exact E|]. cbn [String.append] in E. injection E as E. auto. Qed.
Lemma app_right : forall a b c : string, a ++ c = b ++ c -> a = b.
Proof.
  induction a as [|x a IH]; intros [|y b] c E; [reflexivity| | |].
  - exfalso. apply (f_equal String.length) in E. cbn [String.append String.length] in E. rewrite app_len in E. lia.
  - exfalso. apply (f_equal String.length) in E. cbn [String.append String.length] in E. rewrite app_len in E. lia.
  - cbn [String.append] in E. injection E as -> E. f_equal. eauto.
Qed.
Lemma app_ends : forall a b x y, a ++ String x "" = b ++ String y "" -> x = y.
Proof.
  induction a as [|u a IH]; intros [|v b] x y E; cbn [String.append] in E.
  - now injection E.
  - injection E as _ E. destruct b; discriminate.
  - injection E as _ E. destruct a; discriminate.
  - injection E as _ E. eauto.
Qed.
Lemma last_at : forall q a p t b, norm p = q -> (forall p', In p' (map fst b) -> norm p' <> q) -> last_text q (a ++ (p, t) :: b) = Some t.
Proof.
  intros q a p t b E N. rewrite last_app. cbn [last_text].
  assert (X : last_text q b = None).
  { clear - N. induction b as [|[p' u] b IH]; [reflexivity|]. cbn [last_text]. rewrite IH by (intros; apply N; now right).
    destruct (path_eqb q (norm p')) eqn:Q; [|reflexivity]. apply path_eqb_eq in Q. exfalso. apply (N p' (or_introl eq_refl)). congruence. }
  rewrite X, E, path_eqb_refl. reflexivity.
Qed.
Lemma two_ends : forall (q : path) (a b c d : string), (q ++ [a; b] = q ++ [c; d])%list -> a = c /\ b = d.
Proof. intros q a b c d E. apply app_inv_head in E. injection E. auto. Qed.
Lemma nodes_once : forall ms l, NoDup l -> NoDup (fold_left (fun l m => fold_left add_new (g_recs m) (fold_left add_new (g_trans m) l)) ms l).
Proof. induction ms as [|m ms IH]; intros l N; cbn [fold_left]; auto. apply IH. now apply union_nodup, union_nodup. Qed.

Section Run.
Variables (srt : sorter) (now : string) (argv : list string) (bs : list block) (f f' : fs) (d : dbclist).
Let o := get_options argv.
Let drv := fst (o_drv o).
Hypothesis SR : orders srt.
Hypothesis T : tool_run srt now argv bs f f'.
Hypothesis SC : scan srt (file_text bs) = Ok d.

Lemma sorts_of : sorts srt.
Proof. intros A key l. apply SR. Qed.
Lemma text_of : dbc_text f o = file_text bs.
Proof. unfold dbc_text, o. now rewrite (proj1 (tr_dbc _ _ _ _ _ _ T)). Qed.
Lemma drv_of : is_ident drv = true.
Proof. apply valid_name_ident. exact (tr_valid _ _ _ _ _ _ T). Qed.
Lemma nodes_plain : plain_nodes o d.
Proof. intros _ n N. eapply scan_free; [apply sorts_of|exact SC|exact N]. Qed.
Lemma out_named : out_dir o <> "".
Proof.
  destruct (run_open srt now argv f f' (tr_run _ _ _ _ _ _ T) ltac:(intros d' S' _ n N; eapply scan_free; [apply sorts_of|exact S'|exact N]) d
    (tr_valid _ _ _ _ _ _ T) (proj2 (tr_dbc _ _ _ _ _ _ T)) ltac:(fold o; rewrite text_of; exact SC) (tr_free _ _ _ _ _ _ T)) as (X & _). exact X.
Qed.
Lemma placed : forall dir name, listed o d dir name -> norm (place o dir name) = (norm (out_dir o) ++ [dir; name])%list.
Proof. intros dir name L. apply (listed_norm o d); [exact out_named|exact drv_of|exact nodes_plain|exact L]. Qed.
Lemma texts : exists main util, run_files srt now o d = Ok (main, util) /\
  forall dir name t, listed o d dir name -> last_text (norm (out_dir o) ++ [dir; name])%list (main ++ util) = Some t -> holds o f' dir name t.
Proof.
  destruct (run_texts srt now argv f f' (tr_run _ _ _ _ _ _ T) ltac:(intros d' S' _ n N; eapply scan_free; [apply sorts_of|exact S'|exact N]) d
    (tr_valid _ _ _ _ _ _ T) (proj2 (tr_dbc _ _ _ _ _ _ T)) ltac:(fold o; rewrite text_of; exact SC) (tr_free _ _ _ _ _ _ T)) as (main & util & F & X).
  - intros dir name L. exact (tr_open _ _ _ _ _ _ T d dir name SC L).
  - exists main, util. split; [exact F|]. intros dir name t L E. destruct (X dir name L) as (u & U & K). unfold holds. fold o in K, U. congruence.
Qed.

(** *** The driver *)
Lemma date_ok : match (if o_gendate o then Some now else None) with Some t => no_nl t = true | None => True end.
Proof. destruct (o_gendate o); [apply (tr_names _ _ _ _ _ _ T)|exact Logic.I]. Qed.
Lemma other_place : forall dir name dir' name', listed o d dir name -> listed o d dir' name' -> (dir', name') <> (dir, name) ->
  norm (place o dir' name') <> (norm (out_dir o) ++ [dir; name])%list.
Proof. intros dir name dir' name' L L' N E. rewrite (placed _ _ L') in E. apply two_ends in E as [-> ->]. now apply N. Qed.
Lemma util_butl : forall p, In p (map fst (util_files srt d (app_settings o now d) (o_nodeutils o) drv)) -> exists name, listed o d "butl" name /\ p = place o "butl" name.
Proof.
  intros p I. unfold drv in I. rewrite util_paths in I. destruct (o_nodeutils o) eqn:NU.
  - apply in_flat_map in I as (n & N & I). apply node_in in N. cbn [In] in I. destruct I as [<-|[<-|[]]];
      [exists (str_tolower (n ++ "_" ++ fst (o_drv o)) ++ "-binutil" ++ ".h")|exists (str_tolower (n ++ "_" ++ fst (o_drv o)) ++ "-binutil" ++ ".c")]; split;
      try reflexivity; apply l_node; auto; cbn; auto.
  - cbn [In] in I. destruct I as [<-|[<-|[]]]; [exists (str_tolower (fst (o_drv o)) ++ "-binutil" ++ ".h")|exists (str_tolower (fst (o_drv o)) ++ "-binutil" ++ ".c")]; split;
      try reflexivity; apply l_util; auto; cbn; auto.
Qed.

Theorem driver_left : sound_file drv bs d -> exists h c, holds o f' "lib" (str_tolower drv ++ ".h") h /\ holds o f' "lib" (str_tolower drv ++ ".c") c /\
  forall e, made_of o now d h c e -> project srt bs e.
Proof.
  intros SF. destruct texts as (main & util & F & X).
  destruct (sound_project srt drv bs d srt (out_dir o) (if o_gendate o then Some now else None) (fst (o_dbc o)) (d_verhi d) (d_verlow d) (o_noconfig o) (o_noinc o) (o_nofmon o)
    sorts_of SC SF sorts_of date_ok (proj2 (tr_names _ _ _ _ _ _ T)) (proj1 (scan_version _ _ _ SC)) (proj2 (scan_version _ _ _ SC))) as (h & c & rest & G & P).
  cbv zeta in G, P. change (configure drv (out_dir o) _ _ _ _ _ _ _) with (app_settings o now d) in G, P.
  unfold run_files in F. rewrite G in F. cbn [bind] in F.
  assert (EM : main = (f_coreh_path (st_f (app_settings o now d)), h) :: (f_corec_path (st_f (app_settings o now d)), c) :: rest) by congruence.
  assert (EU : util = util_files srt d (app_settings o now d) (o_nodeutils o) drv) by (unfold drv; congruence). clear F. subst main util. pose proof (main_paths _ _ _ _ _ G) as MP.
  exists h, c.
  assert (LH : forall x, In x [".h"; ".c"; "-fmon.h"] -> listed o d "lib" (str_tolower drv ++ x)) by (intros; now apply l_core).
  assert (REST : forall x, In x [".h"; ".c"] -> forall p, In p (map fst (rest ++ util_files srt d (app_settings o now d) (o_nodeutils o) drv)) ->
    norm p <> (norm (out_dir o) ++ ["lib"; (str_tolower drv ++ x)%string])%list).
  { intros x Xx p I. assert (L : listed o d "lib" (str_tolower drv ++ x)) by (apply LH; cbn in *; tauto).
    rewrite map_app in I. apply in_app_or in I as [I|I].
    - cbn [map fst app] in MP. injection MP as _ _ MP. rewrite MP in I. cbn [In app] in I.
      assert (Y : exists dir name, p = place o dir name /\ listed o d dir name /\ (dir, name) <> ("lib", str_tolower drv ++ x)).
      { destruct I as [<-|I]; [do 2 eexists; split; [reflexivity|]; split; [apply LH; cbn; auto|]|].
        { intros E. injection E as E. apply app_left in E. cbn in Xx. destruct Xx as [<-|[<-|[]]]; discriminate E. }
        repeat (apply in_app_or in I as [I|I]).
        - destruct (o_nofmon o) eqn:Q; [destruct I|]. destruct I as [<-|[]]. do 2 eexists. split; [reflexivity|]. split; [now apply l_fmon|discriminate].
        - destruct (o_noconfig o) eqn:Q; [destruct I|]. destruct I as [<-|[<-|[]]]; do 2 eexists; (split; [reflexivity|]); (split; [|discriminate]); [now apply l_config|now apply l_dbccode].
        - destruct (o_noinc o) eqn:Q; [destruct I|]. destruct I as [<-|[]]. do 2 eexists. split; [reflexivity|]. split; [now apply l_inc|discriminate]. }
      destruct Y as (dir & name & -> & L' & NE). now apply other_place.
    - destruct (util_butl p I) as (name & L' & ->). apply other_place; [exact L|exact L'|discriminate]. }
  pose proof (f_equal (fun l => nth 0 l "") MP) as P1. pose proof (f_equal (fun l => nth 1 l "") MP) as P2. cbn [map fst nth app] in P1, P2.
  split; [|split].
  - apply X; [apply LH; cbn; auto|]. rewrite P1. apply (last_at _ []); [apply placed, LH; cbn; auto|]. intros p I. cbn [map fst app In] in I. destruct I as [<-|I]; [|apply (REST ".h"); [cbn; auto|exact I]].
    rewrite P2. apply other_place; [apply LH; cbn; auto|apply LH; cbn; auto|]. intros E. injection E as E. apply app_left in E. discriminate.
  - apply X; [apply LH; cbn; auto|]. rewrite P2. change ((f_coreh_path (st_f (app_settings o now d)), h) :: (place o "lib" (str_tolower (fst (o_drv o)) ++ ".c")%string, c) :: rest)%list
      with ([(f_coreh_path (st_f (app_settings o now d)), h)] ++ (place o "lib" (str_tolower (fst (o_drv o)) ++ ".c")%string, c) :: rest)%list.
    rewrite <- List.app_assoc. apply last_at; [apply placed, LH; cbn; auto|]. apply (REST ".c"). cbn. auto.
  - intros [n1 n2 n3 n4 n5 n6 n7 n8 n9] (E1 & E2 & E3 & E4 & E5 & E6). cbn [e_drv e_g e_db e_h e_src e_conf] in *. subst. now apply P.
Qed.

(** *** The utilities *)
Theorem utilities_left : forall who e h c, wanted o d who -> made_of o now d h c e -> project srt bs e ->
  exists hu cu, holds o f' "butl" (util_name drv who ++ "-binutil.h") hu /\ holds o f' "butl" (util_name drv who ++ "-binutil.c") cu /\ companion e who hu cu.
Proof.
  intros who e h c (W & IU & LU) (E1 & _ & E3 & _) P. destruct texts as (main & util & F & X).
  destruct (companion_written srt bs e who srt (out_dir o) (if o_gendate o then Some now else None) (fst (o_dbc o)) (o_noconfig o) (o_noinc o) (o_nofmon o)
    P SR date_ok (proj2 (tr_names _ _ _ _ _ _ T)) ltac:(rewrite E1; exact IU) ltac:(rewrite E1; exact LU)) as (hu & cu & G & CO).
  rewrite E1, E3 in G. change (fst (o_drv o)) with drv in G.
  change (configure drv (out_dir o) _ _ _ _ _ _ _) with (app_settings o now d) in G.
  exists hu, cu. cut (holds o f' "butl" (util_name drv who ++ "-binutil.h") hu /\ holds o f' "butl" (util_name drv who ++ "-binutil.c") cu); [tauto|].
  unfold run_files in F. destruct (generate_main srt d (app_settings o now d)) as [mn| |] eqn:GM; try discriminate. cbn [bind] in F.
  assert (EU : util = util_files srt d (app_settings o now d) (o_nodeutils o) drv) by (unfold drv; congruence). clear F. subst util.
  assert (PL : forall x, In x [".h"; ".c"] -> listed o d "butl" (util_name drv who ++ "-binutil" ++ x)).
  { intros x I. destruct who as [n|]; cbn [util_name]; [apply l_node; tauto|now apply l_util]. }
  assert (NX : (util_name drv who ++ "-binutil.c", 1) <> (util_name drv who ++ "-binutil.h", 1)).
  { intros E. injection E as E. apply app_left in E. discriminate. }
  assert (Q : exists a b, util_files srt d (app_settings o now d) (o_nodeutils o) drv =
    (a ++ [(place o "butl" (util_name drv who ++ "-binutil.h")%string, hu); (place o "butl" (util_name drv who ++ "-binutil.c")%string, cu)] ++ b)%list /\
    forall p, In p (map fst b) -> exists name, p = place o "butl" name /\ listed o d "butl" name /\ name <> util_name drv who ++ "-binutil.h" /\ name <> util_name drv who ++ "-binutil.c").
  { pose proof (util_paths srt o now d) as UP. change (fst (o_drv o)) with drv in UP. unfold util_files in *. destruct who as [n|]; cbn [util_settings util_groups util_name] in *.
    - destruct W as (NU & N & DIFF). rewrite NU in *. apply node_in in N. destruct (in_split _ _ N) as (l1 & l2 & EL).
      assert (NN : ~ In n l2).
      { assert (ND : NoDup (node_names (d_msgs d))) by (unfold node_names; apply nodes_once; constructor). rewrite EL in ND. apply NoDup_remove_2 in ND. intros I. apply ND, in_or_app. now right. }
      exists (flat_map (fun node => generate_util srt d (node_settings (app_settings o now d) node drv) (node_groups (d_msgs d) node) drv) l1),
        (flat_map (fun node => generate_util srt d (node_settings (app_settings o now d) node drv) (node_groups (d_msgs d) node) drv) l2).
      assert (ONE : forall x, map fst (generate_util srt d (node_settings (app_settings o now d) x drv) (node_groups (d_msgs d) x) drv) =
        [place o "butl" (str_tolower (x ++ "_" ++ drv) ++ "-binutil.h"); place o "butl" (str_tolower (x ++ "_" ++ drv) ++ "-binutil.c")]).
      { intros x. unfold generate_util, node_settings, app_settings, configure. fold (out_dir o). cbn [map fst st_f f_utilh_path f_utilc_path f_utildir]. unfold place.
        rewrite !(lower_app (str_tolower _)), !lower_lower. rewrite !app_assoc. reflexivity. }
      split.
      + rewrite EL, flat_map_app. cbn [flat_map]. f_equal. f_equal. specialize (ONE n). rewrite G in ONE |- *. cbn [map fst] in ONE. congruence.
      + intros p I. rewrite flat_map_concat_map, concat_map, map_map, <- flat_map_concat_map in I. apply in_flat_map in I as (x & IX & I). rewrite ONE in I.
        assert (NX' : is_node d x) by (apply node_in; rewrite EL; apply in_or_app; right; now right).
        assert (DX : str_tolower (x ++ "_" ++ drv) <> str_tolower (n ++ "_" ++ drv)).
        { intros E. rewrite !lower_app in E. apply app_right in E. apply NN. rewrite <- (DIFF x NX' E). exact IX. }
        cbn [In] in I. destruct I as [<-|[<-|[]]].
        * eexists. split; [reflexivity|]. split; [apply (l_node o d x ".h"); auto; cbn; auto|]. split; intros E.
          -- apply app_right in E. contradiction.
          -- change "-binutil.h" with ("-binutil." ++ "h") in E. change "-binutil.c" with ("-binutil." ++ "c") in E. rewrite <- !app_assoc in E. apply app_ends in E. discriminate.
        * eexists. split; [reflexivity|]. split; [apply (l_node o d x ".c"); auto; cbn; auto|]. split; intros E.
          -- change "-binutil.h" with ("-binutil." ++ "h") in E. change "-binutil.c" with ("-binutil." ++ "c") in E. rewrite <- !app_assoc in E. apply app_ends in E. discriminate.
          -- apply app_right in E. contradiction.
    - rewrite W in *. exists [], []. split; [|intros p []]. rewrite G in *. cbn [map fst] in UP. cbn [app]. congruence. }
  destruct Q as (a & b & EQ & B). rewrite EQ in X. split.
  - apply X; [exact (PL ".h" ltac:(cbn; auto))|]. rewrite List.app_assoc. apply last_at; [apply placed; exact (PL ".h" ltac:(cbn; auto))|].
    intros p I. cbn [map fst app In] in I. destruct I as [<-|I].
    + apply other_place; [exact (PL ".h" ltac:(cbn; auto))|exact (PL ".c" ltac:(cbn; auto))|]. intros E. apply NX. congruence.
    + destruct (B p I) as (name & -> & L & N1 & N2). apply other_place; [exact (PL ".h" ltac:(cbn; auto))|exact L|]. congruence.
  - apply X; [exact (PL ".c" ltac:(cbn; auto))|].
    change ([(place o "butl" (util_name drv who ++ "-binutil.h")%string, hu); (place o "butl" (util_name drv who ++ "-binutil.c")%string, cu)] ++ b)%list
      with ([(place o "butl" (util_name drv who ++ "-binutil.h")%string, hu)] ++ (place o "butl" (util_name drv who ++ "-binutil.c")%string, cu) :: b)%list.
    rewrite !List.app_assoc. apply last_at; [apply placed; exact (PL ".c" ltac:(cbn; auto))|].
    intros p I. destruct (B p I) as (name & -> & L & N1 & N2). apply other_place; [exact (PL ".c" ltac:(cbn; auto))|exact L|]. congruence.
Qed.
End Run.

Lemma declared_node : forall srt bs e n md, project srt bs e -> In md (file_msgs bs) -> declared_for (Some n) md -> is_node (e_db e) n.
Proof.
  intros srt bs e n md P I D. destruct (project_msg _ _ _ _ P I (proj1 D)) as (m & J & S & _). apply (scanned_for _ _ _ P (Some n) md m S J) in D.
  exists m. split; [exact J|]. right. apply D.
Qed.

(** Receive of the programs that a run leaves *)
(** all the files of a run fit together *)
Theorem run_programs : forall srt now argv bs f f' d who, orders srt -> tool_run srt now argv bs f f' -> scan srt (file_text bs) = Ok d ->
  let o := get_options argv in let drv := fst (o_drv o) in sound_file drv bs d -> wanted o d who ->
  exists h c hu cu, left_files o f' who h c hu cu /\ forall e, made_of o now d h c e -> project srt bs e /\ companion e who hu cu.
Proof.
  intros srt now argv bs f f' d who SR T SC o drv SF W. destruct (driver_left srt now argv bs f f' d SR T SC SF) as (h & c & H1 & H2 & PR). fold o in H1, H2, PR. fold drv in H1, H2.
  set (e0 := {| e_fuel := 0; e_drv := drv; e_g := st_g (app_settings o now d); e_db := d; e_h := h; e_src := c; e_conf := []; e_user := fun _ => None; e_calls := fun _ => None |}).
  assert (M0 : made_of o now d h c e0) by (split; [reflexivity|]; split; [reflexivity|]; split; [reflexivity|]; split; [reflexivity|]; split; [reflexivity|]; intros x _; reflexivity).
  destruct (utilities_left srt now argv bs f f' d SR T SC who e0 h c W M0 (PR e0 M0)) as (hu & cu & H3 & H4 & _). exists h, c, hu, cu.
  split; [split; [exact H1|]; split; [exact H2|]; split; [exact H3|exact H4]|].
  intros e M. split; [exact (PR e M)|].
  destruct (utilities_left srt now argv bs f f' d SR T SC who e h c W M (PR e M)) as (hu' & cu' & H3' & H4' & C).
  assert (hu' = hu). { unfold holds in H3, H3'. pose proof (eq_trans (eq_sym H3') H3) as E. now injection E. }
  assert (cu' = cu). { unfold holds in H4, H4'. pose proof (eq_trans (eq_sym H4') H4) as E. now injection E. }
  now subst hu' cu'.
Qed.

Theorem run_delivers : forall srt now argv bs f f' d who, orders srt -> tool_run srt now argv bs f f' -> scan srt (file_text bs) = Ok d ->
  let o := get_options argv in sound_file (fst (o_drv o)) bs d -> wanted o d who -> NoDup (map frame_id (file_msgs bs)) ->
  exists h c hu cu, left_files o f' who h c hu cu /\
    forall e md bits data dl mm, made_of o now d h c e -> floats_on e = false -> receive_free e ->
      In md (file_msgs bs) -> declared_for who md -> short_signed md -> id_is mm (frame_id md) ->
      unpack_call bits md data dl (inside (md_name md) mm) -> counter_at e bits md (inside (md_name md) mm) -> monitored e md (inside (md_name md) mm) ->
      exists mm', receive e who cu mm = Ok (mm', Some (VI U32 (frame_id md))) /\
        (forall x, In x (md_sigs md) -> decl_exact x -> slot_is mm' md x (decl_value x data)) /\ rest_kept md mm mm'.
Proof.
  intros srt now argv bs f f' d who SR T SC o SF W N. destruct (run_programs srt now argv bs f f' d who SR T SC SF W) as (h & c & hu & cu & L & A).
  exists h, c, hu, cu. split; [exact L|]. intros e md bits data dl mm M **. destruct (A e M). eapply receive_declared; eauto.
Qed.

Theorem run_delivers_phys : forall srt now argv bs f f' d who, orders srt -> tool_run srt now argv bs f f' -> scan srt (file_text bs) = Ok d ->
  let o := get_options argv in sound_file (fst (o_drv o)) bs d -> wanted o d who -> NoDup (map frame_id (file_msgs bs)) ->
  exists h c hu cu, left_files o f' who h c hu cu /\
    forall e md bits data dl mm, made_of o now d h c e -> floats_on e = true -> receive_free e ->
      In md (file_msgs bs) -> declared_for who md -> short_signed md -> convertible (file_msgs bs) md -> id_is mm (frame_id md) ->
      unpack_call bits md data dl (inside (md_name md) mm) -> phys_struct (inside (md_name md) mm) md ->
      counter_at e bits md (inside (md_name md) mm) -> monitored e md (inside (md_name md) mm) ->
      exists mm', receive e who cu mm = Ok (mm', Some (VI U32 (frame_id md))) /\
        (forall x, In x (md_sigs md) -> decl_exact x -> slot_is mm' md x (decl_value x data) /\
           (unscaledb x = false -> exists v, m_scal mm' (sub_path (md_name md) (phys_name x)) = Some (phys_object x, v) /\ phys_value x (decl_value x data) v)) /\
        rest_kept md mm mm'.
Proof.
  intros srt now argv bs f f' d who SR T SC o SF W N. destruct (run_programs srt now argv bs f f' d who SR T SC SF W) as (h & c & hu & cu & L & A).
  exists h, c, hu, cu. split; [exact L|]. intros e md bits data dl mm M **. destruct (A e M). eapply receive_phys; eauto.
Qed.

Theorem run_ignores : forall srt now argv bs f f' d who, orders srt -> tool_run srt now argv bs f f' -> scan srt (file_text bs) = Ok d ->
  let o := get_options argv in sound_file (fst (o_drv o)) bs d -> wanted o d who -> NoDup (map frame_id (file_msgs bs)) ->
  exists h c hu cu, left_files o f' who h c hu cu /\
    forall e mm i, made_of o now d h c e -> receive_free e -> (exists md, In md (file_msgs bs) /\ declared_for who md) -> id_is mm i ->
      (forall md, In md (file_msgs bs) -> declared_for who md -> frame_id md <> i) ->
      exists mm', receive e who cu mm = Ok (mm', Some (VI U32 0)) /\ (forall p, p <> "recid" -> m_scal mm' p = m_scal mm p) /\ m_arr mm' = m_arr mm.
Proof.
  intros srt now argv bs f f' d who SR T SC o SF W N. destruct (run_programs srt now argv bs f f' d who SR T SC SF W) as (h & c & hu & cu & L & A).
  exists h, c, hu, cu. split; [exact L|]. intros e mm i M **. destruct (A e M). eapply receive_ignored; eauto.
Qed.

(** two runs on the same DBC file, one for the sender and one for the receiver *)
Theorem runs_talk : forall srt1 srt2 now1 now2 argv1 argv2 bs f1 f1' f2 f2' d1 d2 who, orders srt1 -> orders srt2 ->
  tool_run srt1 now1 argv1 bs f1 f1' -> tool_run srt2 now2 argv2 bs f2 f2' -> scan srt1 (file_text bs) = Ok d1 -> scan srt2 (file_text bs) = Ok d2 ->
  let o1 := get_options argv1 in let o2 := get_options argv2 in
  sound_file (fst (o_drv o1)) bs d1 -> sound_file (fst (o_drv o2)) bs d2 -> wanted o2 d2 who -> NoDup (map frame_id (file_msgs bs)) ->
  exists h1 c1 h2 c2 hu cu, holds o1 f1' "lib" (str_tolower (fst (o_drv o1)) ++ ".h") h1 /\ holds o1 f1' "lib" (str_tolower (fst (o_drv o1)) ++ ".c") c1 /\
    left_files o2 f2' who h2 c2 hu cu /\
    forall e1 e2 md bits1 bits2 mx data hash mm1 mm2 dl data2, made_of o1 now1 d1 h1 c1 e1 -> floats_on e1 = false -> made_of o2 now2 d2 h2 c2 e2 -> floats_on e2 = false ->
      receive_free e2 -> In md (file_msgs bs) -> declared_for who md -> disjoint_bits md -> short_signed md ->
      pack_call e1 bits1 md mx data mm1 -> computing e1 bits1 md hash mm1 -> id_is mm2 (frame_id md) ->
      unpack_call bits2 md data2 dl (inside (md_name md) mm2) -> counter_at e2 bits2 md (inside (md_name md) mm2) -> monitored e2 md (inside (md_name md) mm2) ->
      exists mm1' data' mm2', pack_decl e1 md mm1 = Ok (mm1', Some (VI U32 (frame_id md))) /\ frame e1 mm1' data' /\
        (firstn (N.to_nat (md_dlc md)) data2 = firstn (N.to_nat (md_dlc md)) data' ->
           receive e2 who cu mm2 = Ok (mm2', Some (VI U32 (frame_id md))) /\ rest_kept md mm2 mm2' /\
           forall x z, In x (md_sigs md) -> decl_exact x -> ~ checksum_decl e1 md x -> decl_is mm1 x z ->
             (~ counter_decl e1 md x -> decl_carries x z -> slot_is mm2' md x z) /\
             (counter_decl e1 md x -> sd_signed x = false -> slot_is mm2' md x ((z + 1) mod 2 ^ Z.of_N (sd_len x)))).
Proof.
  intros srt1 srt2 now1 now2 argv1 argv2 bs f1 f1' f2 f2' d1 d2 who S1 S2 T1 T2 C1 C2 o1 o2 F1 F2 W N.
  destruct (driver_left srt1 now1 argv1 bs f1 f1' d1 S1 T1 C1 F1) as (h1 & c1 & H1 & H2 & PR).
  destruct (run_programs srt2 now2 argv2 bs f2 f2' d2 who S2 T2 C2 F2 W) as (h & c & hu & cu & L & A).
  exists h1, c1, h, c, hu, cu. split; [exact H1|]. split; [exact H2|]. split; [exact L|].
  intros e1 e2 md bits1 bits2 mx data hash mm1 mm2 dl data2 M1 FL1 M2 FL2 **. pose proof (PR e1 M1). destruct (A e2 M2).
  eapply (sent_over_network srt1 srt2 bs e1 e2); eauto.
Qed.
