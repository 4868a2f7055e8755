(** From declarations to the conditions of the theorems about emitted functions. *)

From Coq Require Import ZArith NArith List String Ascii Bool Lia ZifyBool Permutation.
From Verif Require Import Base Dbl CSyntax CSem CRun Types Formatter Settings MainGen App LineParser Scanner LexLemmas PPProof CodecSpec MsgSpec
  DriverSpec HeaderSpec ScanSpec ScanLemmas ScanPass1 ScanPass2 ScanFile ScanThms ScanMarks SigSpec SigLine SigFile SigTypes NamesSpec CodecEnv ConvSpec ConvEnv ConvThms
  CodecFacts NamesThms DblSize DeclSpec.
Import ListNotations.
Open Scope string_scope.

(** *** One signal *)
Lemma unscaledb_ok : forall d, unscaledb d = true <-> unscaled d.
Proof.
  intros d. unfold unscaledb, unscaled. split.
  - destruct (sd_factor d) as [f|]; [|discriminate]. destruct f as [|[]|]; try discriminate.
    destruct (sd_offset d) as [o|]; [|discriminate]. destruct o; try discriminate. auto.
  - intros [-> ->]. reflexivity.
Qed.
Lemma read_names : forall d s, read_as d s ->
  s_name s = field_name d /\ s_simple s = unscaledb d /\ (unscaledb d = false -> s_namefloat s = sd_name d ++ "_phys").
Proof.
  intros d s R. unfold field_name. destruct (unscaledb d) eqn:E.
  - apply unscaledb_ok in E. destruct (ra_plain _ _ R E) as (A & B & _). repeat split; auto. discriminate.
  - assert (N : ~ unscaled d) by (intros X; apply unscaledb_ok in X; congruence). destruct (ra_scaled _ _ R N) as (A & B & C). auto.
Qed.
Lemma read_type : forall d s, read_as d s -> declared s -> (1 <= sd_len d <= 64)%N -> s_typero s = field_type d.
Proof.
  intros d s R D L. pose proof (declared_types s D) as T. rewrite (ra_len _ _ R) in T. specialize (T ltac:(lia)).
  pose proof (tf_signed _ _ _ _ _ _ _ T) as S. pose proof (tf_holds _ _ _ _ _ _ _ T) as H. pose proof (tf_least _ _ _ _ _ _ _ T) as M.
  rewrite (ra_signed _ _ R) in *. unfold field_type. assert (HF : forall t, is_signed t = sd_signed d -> (Z.of_N (sd_len d) <= width t)%Z -> (width (s_typero s) <= width t)%Z) by auto.
  clear M T. destruct (N.leb_spec (sd_len d) 8) as [L8|L8]; [|destruct (N.leb_spec (sd_len d) 16) as [L16|L16]; [|destruct (N.leb_spec (sd_len d) 32) as [L32|L32]]].
  - destruct (sd_signed d) eqn:E.
    + specialize (HF I8 eq_refl ltac:(cbn; lia)). destruct (s_typero s); cbn in *; try discriminate; try lia; reflexivity.
    + specialize (HF U8 eq_refl ltac:(cbn; lia)). destruct (s_typero s); cbn in *; try discriminate; try lia; reflexivity.
  - destruct (sd_signed d) eqn:E.
    + specialize (HF I16 eq_refl ltac:(cbn; lia)). destruct (s_typero s); cbn in *; try discriminate; try lia; reflexivity.
    + specialize (HF U16 eq_refl ltac:(cbn; lia)). destruct (s_typero s); cbn in *; try discriminate; try lia; reflexivity.
  - destruct (sd_signed d) eqn:E.
    + specialize (HF I32 eq_refl ltac:(cbn; lia)). destruct (s_typero s); cbn in *; try discriminate; try lia; reflexivity.
    + specialize (HF U32 eq_refl ltac:(cbn; lia)). destruct (s_typero s); cbn in *; try discriminate; try lia; reflexivity.
  - destruct (sd_signed d) eqn:E; destruct (s_typero s); cbn in *; try discriminate; try lia; reflexivity.
Qed.
Lemma read_object : forall bits d s, read_as d s -> declared s -> (1 <= sd_len d <= 64)%N -> field_ty bits s = field_object bits d.
Proof.
  intros bits d s R D L. unfold field_ty, field_object. rewrite (read_type d s R D L), (ra_len _ _ R).
  replace (Z.of_N (sd_len d) <? 8)%Z with (sd_len d <? 8)%N by lia. reflexivity.
Qed.

(** *** One message *)
(** what the scanner makes of a declared message *)
Record scanned (md : msgdecl) (m : message) : Prop := {
  sc_read : read_message md m;
  sc_entries : entries_ok m;
  sc_decl : forall s, In s (g_sigs m) -> declared s;
  sc_some : g_notempty m = negb (match md_sigs md with [] => true | _ => false end)
}.

Lemma forall2_perm_in : forall A B (R : A -> B -> Prop) l1 l2 p, Permutation l1 p -> Forall2 R l1 l2 ->
  (forall a, In a p -> exists b, In b l2 /\ R a b) /\ (forall b, In b l2 -> exists a, In a p /\ R a b).
Proof.
  intros A B R l1 l2 p P F. split.
  - intros a I. apply (Permutation_in _ (Permutation_sym P)) in I. clear P. induction F as [|x y l1 l2 H F IH]; [contradiction|].
    destruct I as [<-|I]; [exists y; split; [now left|auto]|]. destruct (IH I) as (b & J & K). exists b. split; [now right|auto].
  - intros b I. assert (X : exists a, In a l1 /\ R a b).
    { clear P. induction F as [|x y l1 l2 H F IH]; [contradiction|]. destruct I as [<-|I]; [exists x; split; [now left|auto]|].
      destruct (IH I) as (a & J & K). exists a. split; [now right|auto]. }
    destruct X as (a & J & K). exists a. split; [|exact K]. now apply (Permutation_in _ P).
Qed.
Lemma sig_of_decl : forall md m, scanned md m -> forall s, In s (g_sigs m) -> exists d, In d (md_sigs md) /\ read_as d s.
Proof. intros md m S s I. destruct (rm_sigs _ _ (sc_read _ _ S)) as (ds & P & F). now apply (forall2_perm_in _ _ _ _ _ _ P F). Qed.
Lemma decl_of_sig : forall md m, scanned md m -> forall d, In d (md_sigs md) -> exists s, In s (g_sigs m) /\ read_as d s.
Proof. intros md m S d I. destruct (rm_sigs _ _ (sc_read _ _ S)) as (ds & P & F). now apply (forall2_perm_in _ _ _ _ _ _ P F). Qed.

Lemma read_pos : forall d s k, read_as d s -> sig_pos (s_order s) (s_start s) (s_len s) k = decl_pos d k.
Proof. intros d s k R. unfold decl_pos. now rewrite (ra_order _ _ R), (ra_start _ _ R), (ra_len _ _ R). Qed.

Lemma ident_app : forall a b, is_ident a = true -> all_chars is_idchar b = true -> is_ident (a ++ b) = true.
Proof.
  intros [|c a] b H K; [discriminate|]. cbn [is_ident String.append] in *. apply andb_true_iff in H as [H1 H2].
  now rewrite H1, all_chars_app, H2, K.
Qed.

Lemma members_perm : forall md m, scanned md m -> Permutation (flat_map members_of (md_sigs md)) (member_names m).
Proof.
  intros md m S. destruct (rm_sigs _ _ (sc_read _ _ S)) as (ds & P & F).
  rewrite <- (Permutation_flat_map members_of P). unfold member_names, phys_names. clear P. induction F as [|d s ds ss R F IH]; [constructor|].
  cbn [flat_map map filter]. destruct (read_names d s R) as (N & SI & PH). rewrite N, SI. unfold members_of, field_name in *. destruct (unscaledb d); cbn [negb map List.app].
  - constructor. exact IH.
  - constructor. rewrite PH by reflexivity. apply Permutation_cons_app. exact IH.
Qed.

Lemma byte_same : forall d s i, read_as d s -> in_byte s i = decl_in_byte i d.
Proof.
  intros d s i R. unfold in_byte, decl_in_byte. replace (Z.to_nat (s_len s)) with (N.to_nat (sd_len d)) by (rewrite (ra_len _ _ R); lia).
  induction (seq 0 (N.to_nat (sd_len d))) as [|k l IH]; [reflexivity|]. cbn [existsb]. now rewrite (read_pos d s _ R), IH.
Qed.
Lemma size_perm : forall a b, Permutation a b -> decl_size a = decl_size b.
Proof. intros a b P. induction P; cbn [decl_size]; lia. Qed.
Lemma perm_filter : forall A (f : A -> bool) a b, Permutation a b -> Permutation (filter f a) (filter f b).
Proof.
  intros A f a b P. induction P; cbn [filter]; auto.
  - destruct (f x); auto.
  - destruct (f x), (f y); auto. constructor.
  - eapply Permutation_trans; eauto.
Qed.

Lemma scanned_ok : forall md m, scanned md m -> fits md -> mdecl_ok md -> msg_ok m /\ csm_first8 m /\ short_lines m.
Proof.
  intros md m S F O. pose proof (sc_read _ _ S) as R. destruct O as [_ (H1 & H2 & H3) _ _ _].
  split; [|split].
  - constructor.
    + rewrite (rm_dlc _ _ R). lia.
    + rewrite (rm_id _ _ R). unfold plain_id. pose proof (N.mod_lt (md_id md) (2 ^ 29) ltac:(discriminate)). change (2 ^ 29)%N with 536870912%N in *. change (2 ^ 29)%Z with 536870912%Z. lia.
    + rewrite (rm_ext _ _ R). clear. destruct (N.testbit (md_id md) 31); lia.
    + rewrite (rm_name _ _ R). apply F.
    + rewrite (rm_name _ _ R). apply F.
    + intros s I. destruct (sig_of_decl _ _ S s I) as (d & ID & RA). pose proof (ft_len _ F d ID) as L. destruct (ft_names _ F d ID) as [NI NL].
      destruct (read_names d s RA) as (N & SI & PH). constructor.
      * rewrite N. unfold field_name. destruct (unscaledb d); [exact NI|]. now apply ident_app.
      * rewrite N. unfold field_name. destruct (unscaledb d); [lia|]. rewrite app_len. cbn [String.length]. lia.
      * rewrite (ra_len _ _ RA). lia.
      * rewrite (ra_start _ _ RA). lia.
      * intros k K. rewrite (ra_len _ _ RA) in K. rewrite (read_pos d s _ RA), (rm_dlc _ _ R). now apply (ft_frame _ F).
      * pose proof (declared_types s (sc_decl _ _ S s I)) as T. rewrite (ra_len _ _ RA) in T. specialize (T ltac:(lia)).
        split; [apply T|]. rewrite (ra_len _ _ RA). apply T.
      * rewrite SI. intros U. rewrite (PH U). split; [now apply ident_app|]. rewrite app_len. cbn [String.length]. lia.
    + eapply Permutation_NoDup; [apply (members_perm _ _ S)|apply F].
    + apply (sc_entries _ _ S).
    + intros s X. destruct (en_csm _ (sc_entries _ _ S) s X) as (A1 & A2 & A3 & A4 & _). auto.
  - intros s X. apply (en_csm _ (sc_entries _ _ S) s X).
  - intros i. destruct (rm_sigs _ _ R) as (ds & P & FF).
    assert (LE : (names_size (filter (fun sg => in_byte sg i) (g_sigs m)) <= decl_size (filter (decl_in_byte i) ds))%Z).
    { clear - FF. induction FF as [|d s ds ss RA FF IH]; [cbn; lia|]. cbn [filter]. rewrite (byte_same d s i RA). destruct (decl_in_byte i d); [|exact IH].
      cbn [names_size decl_size]. destruct (read_names d s RA) as (N & _). rewrite N. unfold field_name. destruct (unscaledb d); [lia|].
      rewrite app_len. cbn [String.length]. lia. }
    pose proof (size_perm _ _ (perm_filter _ (decl_in_byte i) _ _ P)). pose proof (ft_lines _ F i). lia.
Qed.

(** *** The file *)
Lemma forall2_in_l : forall A B (R : A -> B -> Prop) l l' a, Forall2 R l l' -> In a l -> exists b, In b l' /\ R a b.
Proof. intros A B R l l' a F I. now apply (forall2_perm_in _ _ _ _ _ _ (Permutation_refl l) F). Qed.
Lemma forall2_in_r : forall A B (R : A -> B -> Prop) l l' b, Forall2 R l l' -> In b l' -> exists a, In a l /\ R a b.
Proof. intros A B R l l' b F I. now apply (forall2_perm_in _ _ _ _ _ _ (Permutation_refl l) F). Qed.
Definition null {A} (l : list A) : bool := match l with [] => true | _ => false end.
Lemma null_len : forall A B (a : list A) (b : list B), List.length a = List.length b -> null a = null b.
Proof. intros A B [|] [|] H; cbn in H; try discriminate; reflexivity. Qed.
Lemma forall2_len : forall A B (R : A -> B -> Prop) a b, Forall2 R a b -> List.length a = List.length b.
Proof. intros A B R a b F. induction F; cbn [List.length]; auto. Qed.
Lemma notempty_sigs : forall srt text d m, sorts srt -> scan srt text = Ok d -> In m (d_msgs d) -> g_notempty m = negb (null (g_sigs m)).
Proof.
  intros srt text d m SR H I. pose proof (scan_messages _ _ _ H) as F. destruct (forall2_in_l _ _ _ _ _ _ F I) as (g & _ & m0 & sigs & M).
  rewrite (mf_notempty _ _ _ _ _ M). f_equal. change (null (accepted (fst g :: snd g)) = null (g_sigs m)). apply null_len.
  pose proof (mf_sigs _ _ _ _ _ M) as F2. apply forall2_len in F2. rewrite F2, (mf_sorted _ _ _ _ _ M). apply Permutation_length. symmetry. apply SR.
Qed.

Lemma file_getlines : forall bs, (forall b, In b bs -> block_ok b) -> getlines (file_text bs) = flat_map block_lines bs.
Proof.
  intros bs OK. apply lines_all. intros l L. apply in_flat_map in L as (b & B & L). specialize (OK b B). destruct b as [m|x]; cbn [block_lines block_ok] in *.
  - destruct OK as [_ _ N T S]. destruct L as [<-|L]; [now apply bo_oneline|]. apply in_map_iff in L as (s & <- & X). apply sig_oneline, S, X.
  - destruct L as [<-|[]]. apply OK.
Qed.
Lemma silent_lines : forall bs l, (forall b, In b bs -> silent_block b) -> In l (flat_map block_lines bs) -> opens_entry l = false.
Proof.
  intros bs l S I. apply in_flat_map in I as (b & B & L). specialize (S b B). destruct b as [m|x]; cbn [block_lines silent_block] in *.
  - destruct L as [<-|L]; [reflexivity|]. apply in_map_iff in L as (s & <- & _). reflexivity.
  - destruct L as [<-|[]]. exact S.
Qed.
Lemma silent_edits : forall ms ls, (forall l, In l ls -> opens_entry l = false) -> parse_other_info ms ls = ms.
Proof.
  intros ms ls H. rewrite other_info_edits. assert (E : edits idle ls = []); [|now rewrite E].
  induction ls as [|l ls IH]; [reflexivity|]. cbn [edits]. rewrite (other_idle l (H l (or_introl eq_refl))). cbn [fst snd List.app].
  apply IH. intros x I. apply H. now right.
Qed.

Lemma forall2_both : forall A B (R Q : A -> B -> Prop) a b, Forall2 R a b -> (forall y, In y b -> forall x, R x y -> Q x y) -> Forall2 Q a b.
Proof. intros A B R Q a b F. induction F as [|x y a b X F IH]; intros H; constructor; [apply H; [now left|auto]|apply IH; intros; apply H; [now right|auto]]. Qed.

Lemma silent_bare : forall srt bs d m, sorts srt -> (forall b, In b bs -> block_ok b /\ silent_block b) -> scan srt (file_text bs) = Ok d ->
  In m (d_msgs d) -> bare m.
Proof.
  intros srt bs d m SR OK H I. assert (OK1 : forall b, In b bs -> block_ok b) by (intros; now apply OK).
  destruct (scan_passes _ _ _ H) as (d1 & P1 & E & _). rewrite silent_edits in E.
  2: { intros l L. rewrite file_getlines in L by exact OK1. eapply silent_lines; [|exact L]. intros; now apply OK. }
  rewrite E in I. eapply info_bare; eauto.
Qed.
Lemma bare_entries : forall m, bare m -> entries_ok m.
Proof.
  intros m B. constructor.
  - intros s t v I J. destruct (ba_sigs _ B s I) as (_ & V & _). rewrite V in J. contradiction.
  - intros s X. unfold roll_sig in X. now rewrite (ba_roll _ B) in X.
  - intros s X. unfold csm_sig in X. now rewrite (ba_csm _ B) in X.
Qed.
Lemma bare_uncomputed : forall M g m, bare m -> counter_on M g m = None /\ checksum_on M g m = None.
Proof.
  intros M g m B. unfold counter_on, checksum_on, roll_sig, csm_sig. rewrite (ba_roll _ B), (ba_csm _ B). split; now destruct (defined _ _).
Qed.
Lemma file_scanned : forall srt bs d, sorts srt -> (forall b, In b bs -> block_ok b) -> scan srt (file_text bs) = Ok d ->
  (forall m, In m (d_msgs d) -> entries_ok m) -> Forall2 scanned (file_msgs bs) (d_msgs d).
Proof.
  intros srt bs d SR OK1 H EN.
  pose proof (file_read srt bs d SR OK1 H) as F. eapply forall2_both; [exact F|]. intros m I md R.
  constructor; auto.
  - intros s IS. eapply scanned_declared; eauto.
  - rewrite (notempty_sigs _ _ _ _ SR H I). f_equal. change (null (g_sigs m) = null (md_sigs md)). apply null_len.
    destruct (rm_sigs _ _ R) as (ds & PM & F2). apply forall2_len in F2. apply Permutation_length in PM. lia.
Qed.

(** *** Macro names *)
Lemma scaled_perm : forall md m, scanned md m -> Permutation (scaled_fields md) (scaled m).
Proof.
  intros md m S. destruct (rm_sigs _ _ (sc_read _ _ S)) as (ds & P & F). unfold scaled, scaled_fields. rewrite (sc_some _ _ S).
  destruct (md_sigs md) as [|x l] eqn:E; [constructor|]. cbn [negb]. rewrite <- E in *.
  rewrite <- (Permutation_map field_name (perm_filter _ _ _ _ P)). clear P. induction F as [|d s ds ss R F IH]; [constructor|].
  cbn [filter]. destruct (read_names d s R) as (N & SI & _). rewrite SI. destruct (negb (unscaledb d)); [|exact IH]. cbn [map]. rewrite N. now constructor.
Qed.
Lemma flat_perm : forall A B C (R : A -> B -> Prop) (f : A -> list C) (g : B -> list C) a b, Forall2 R a b ->
  (forall x y, R x y -> Permutation (f x) (g y)) -> Permutation (flat_map f a) (flat_map g b).
Proof. intros A B C R f g a b F H. induction F; cbn [flat_map]; [constructor|]. apply Permutation_app; auto. Qed.
Lemma nodup_perm : forall (a b : list string), Permutation a b -> Permutation (nodup string_dec a) (nodup string_dec b).
Proof.
  intros a b P. apply NoDup_Permutation; [apply NoDup_nodup|apply NoDup_nodup|]. intros x. rewrite !nodup_In. split; apply Permutation_in; [exact P|now symmetry].
Qed.
Lemma names_perm : forall D ds ms mx vh vl, Forall2 (fun md m => scanned md m /\ bare m) ds ms ->
  Permutation (decl_names D ds) (header_names D {| d_msgs := ms; d_maxdlc := mx; d_verhi := vh; d_verlow := vl |}).
Proof.
  intros D ds ms mx vh vl F. unfold decl_names, header_names. cbn [d_msgs]. apply Permutation_app_head. apply Permutation_app.
  - eapply flat_perm; [exact F|]. intros md m [S BA]. unfold id_names, entry_names. rewrite (ba_cycle _ BA), (rm_name _ _ (sc_read _ _ S)).
    cbn [Z.ltb Z.compare]. assert (E : flat_map (fun sg => map (fun p => (s_name sg ++ "_" ++ md_name md ++ "_" ++ fst p)%string) (s_valdefs sg)) (g_sigs m) = []).
    { pose proof (ba_sigs _ BA) as B. induction (g_sigs m) as [|s l IH]; [reflexivity|]. cbn [flat_map].
      destruct (B s (or_introl eq_refl)) as (_ & V & _). rewrite V. cbn [map List.app]. apply IH. intros x I. apply B. now right. }
    rewrite E. destruct (g_notempty m); reflexivity.
  - apply Permutation_flat_map. apply nodup_perm. eapply flat_perm; [exact F|]. intros md m [S _]. now apply scaled_perm.
Qed.

(** *** Projects *)
Section Project.
Variables (srt : sorter) (bs : list block) (e : env).
Hypothesis P : project srt bs e.

Lemma pj_scanned : Forall2 scanned (file_msgs bs) (d_msgs (e_db e)).
Proof. eapply file_scanned; apply P. Qed.
Lemma pj_mdecl : forall md, In md (file_msgs bs) -> mdecl_ok md.
Proof. intros md M. apply in_flat_map in M as ([m'|x] & B & E); [|contradiction]. destruct E as [E|[]]. subst m'. apply (pj_blocks _ _ _ P _ B). Qed.
Lemma pj_driver : driver (e_drv e) (e_g e) (e_db e) (e_h e) (e_src e).
Proof.
  constructor; try apply P.
  - intros m I. destruct (forall2_in_r _ _ _ _ _ _ pj_scanned I) as (md & J & S). apply (scanned_ok md m S); [now apply (pj_fits _ _ _ P)|now apply pj_mdecl].
  - pose proof (pj_msgs _ _ _ P) as N. replace (map g_name (d_msgs (e_db e))) with (map md_name (file_msgs bs)); [exact N|].
    pose proof pj_scanned as F. induction F as [|md m ds ms S F IH]; [reflexivity|]. cbn [map] in *. inversion N; subst. rewrite (rm_name _ _ (sc_read _ _ S)). f_equal. auto.
Qed.
Lemma unit_line : forall u, all_chars unit_char u = true -> no_nl u = true.
Proof.
  unfold no_nl. induction u as [|c u IH]; intros H; [reflexivity|]. cbn [all_chars has_char] in *. apply andb_true_iff in H as [C H]. specialize (IH H).
  unfold unit_char in C. rewrite Ascii.eqb_sym. destruct (Ascii.eqb c NL); [rewrite !andb_false_r in C; discriminate|]. exact IH.
Qed.
Lemma pj_header : header_ok (e_db e).
Proof.
  constructor.
  - intros m s IM IS. destruct (forall2_in_r _ _ _ _ _ _ pj_scanned IM) as (md & J & S). destruct (sig_of_decl _ _ S s IS) as (d & ID & R).
    pose proof (pj_mdecl md J) as MO. destruct (SigSpec.mo_sigs _ MO d ID) as (DO & _). constructor.
    + rewrite (ra_unit _ _ R). split; [apply unit_line, DO|]. now apply (ft_units _ (pj_fits _ _ _ P md J)).
    + rewrite (ra_factor _ _ R), (ra_offset _ _ R). split; apply printed_len, num_size.
    + intros t v IV. now apply (en_tables _ (sc_entries _ _ S) s t v).
  - destruct (scan_max_is _ _ _ (pj_scan _ _ _ P)) as [[->|(m & I & <-)] _]; [lia|].
    destruct (forall2_in_r _ _ _ _ _ _ pj_scanned I) as (md & J & S). rewrite (rm_dlc _ _ (sc_read _ _ S)).
    destruct (SigSpec.mo_head _ (pj_mdecl md J)) as (_ & _ & L). lia.
Qed.
Lemma pj_program : program e.
Proof. apply names_program; [apply pj_driver|apply pj_header| |]; apply P. Qed.
End Project.

(** *** Calls *)
Lemma project_msg : forall srt bs e md, project srt bs e -> In md (file_msgs bs) -> md_sigs md <> [] ->
  exists m, In m (d_msgs (e_db e)) /\ scanned md m /\ g_notempty m = true.
Proof.
  intros srt bs e md P I N. destruct (forall2_in_l _ _ _ _ _ _ (pj_scanned _ _ _ P) I) as (m & J & S). exists m. split; [exact J|]. split; [exact S|].
  rewrite (sc_some _ _ S). destruct (md_sigs md); [contradiction|reflexivity].
Qed.
Lemma becomes_one : forall srt bs e md m m', project srt bs e -> scanned md m -> In m (d_msgs (e_db e)) -> becomes e md m' -> m' = m.
Proof.
  intros srt bs e md m m' P S J (J' & E). pose proof (dr_names _ _ _ _ _ (pj_driver _ _ _ P)) as N. rewrite <- (rm_name _ _ (sc_read _ _ S)) in E.
  revert J J' E N. generalize (d_msgs (e_db e)). induction l as [|x l IH]; intros J J' E N; [contradiction|]. cbn [map] in N. inversion N as [|? ? NI ND]; subst.
  destruct J as [->|J], J' as [->|J']; auto.
  - exfalso. apply NI. rewrite <- E. now apply in_map.
  - exfalso. apply NI. rewrite E. now apply in_map.
Qed.
Lemma becomes_scanned : forall e md m, scanned md m -> In m (d_msgs (e_db e)) -> becomes e md m.
Proof. intros e md m S J. split; [exact J|]. apply (sc_read _ _ S). Qed.

(** one message of a project *)
Section Message.
Variables (srt : sorter) (bs : list block) (e : env) (md : msgdecl) (m : message).
Hypothesis P : project srt bs e.
Hypothesis I : In md (file_msgs bs).
Hypothesis S : scanned md m.
Hypothesis J : In m (d_msgs (e_db e)).

Lemma pm_ok : msg_ok m.
Proof. apply (scanned_ok md m S (pj_fits _ _ _ P md I) (pj_mdecl _ _ _ P md I)). Qed.
Lemma same_signal : forall s t d, In s (g_sigs m) -> In t (g_sigs m) -> read_as d s -> s_name t = field_name d -> t = s.
Proof. intros s t d IS IT R E. destruct (read_names d s R) as (N & _). eapply CodecThms.name_inj; [apply pm_ok|exact IT|exact IS|congruence]. Qed.
Lemma counter_sig : forall d s, In s (g_sigs m) -> read_as d s -> (counter_decl e md d <-> counter_on (e_macros e) (e_g e) m = Some s).
Proof.
  intros d s IS R. split.
  - intros (m' & t & B & C & E). rewrite (becomes_one _ _ _ _ _ _ P S J B) in C. rewrite C. f_equal. eapply same_signal; eauto. eapply counter_in; eauto.
  - intros C. exists m, s. split; [now apply becomes_scanned|]. split; [exact C|]. apply (read_names d s R).
Qed.
Lemma checksum_sig : forall d s, In s (g_sigs m) -> read_as d s -> (checksum_decl e md d <-> checksum_on (e_macros e) (e_g e) m = Some s).
Proof.
  intros d s IS R. split.
  - intros (m' & t & B & C & E). rewrite (becomes_one _ _ _ _ _ _ P S J B) in C. rewrite C. f_equal. eapply same_signal; eauto. eapply checksum_in; eauto.
  - intros C. exists m, s. split; [now apply becomes_scanned|]. split; [exact C|]. apply (read_names d s R).
Qed.
Lemma rolls_counter : forall s, rolls_on e = true -> roll_sig m = Some s -> counter_on (e_macros e) (e_g e) m = Some s.
Proof. intros s R E. unfold counter_on. unfold rolls_on in R. now rewrite R. Qed.

Lemma struct_has : forall bits mm, floats_on e = false -> struct_at bits mm md -> counter_at e bits md mm ->
  has_struct (floats_on e) (rolls_on e) bits m mm.
Proof.
  intros bits mm FL H CA. pose proof (pj_fits _ _ _ P md I) as F. constructor.
  - intros s IS. destruct (sig_of_decl _ _ S s IS) as (d & ID & R). destruct (read_names d s R) as (N & _). rewrite N, (read_object bits d s R); auto.
    + now apply (sc_decl _ _ S).
    + now apply (ft_len _ F).
  - intros X. congruence.
  - intros X s Y. pose proof (DriverProof.roll_in _ _ Y) as IS. destruct (sig_of_decl _ _ S s IS) as (d & ID & R). destruct (read_names d s R) as (N & _).
    rewrite N, (read_object bits d s R); [|now apply (sc_decl _ _ S)|now apply (ft_len _ F)]. apply CA; [exact ID|]. apply (counter_sig d s IS R). now apply rolls_counter.
Qed.
End Message.

Lemma data_payload : forall md m mm p data, scanned md m -> data_at mm p md data -> payload mm p m data.
Proof. intros md m mm p data S (A & B & C). split; [exact A|]. split; [exact B|]. now rewrite (rm_dlc _ _ (sc_read _ _ S)). Qed.

Lemma receives_decl : forall srt bs e md m bits data dl mm, project srt bs e -> floats_on e = false -> In md (file_msgs bs) -> scanned md m ->
  In m (d_msgs (e_db e)) -> g_notempty m = true -> unpack_call bits md data dl mm -> counter_at e bits md mm -> monitored e md mm ->
  exists tick hash hook, receives e m bits data dl tick hash hook (fun _ _ => VI I32 0) mm.
Proof.
  intros srt bs e md m bits data dl mm P BF I S J NE [U1 U2 U3] CA MN.
  assert (X : exists tick hash hook, monitors_on e = true -> monitors (e_evals e) (e_ctx e) (e_g e) m mm tick hash hook).
  { destruct (monitors_on e) eqn:E.
    - destruct (MN E m (becomes_scanned e md m S J)) as (t & h & k & H). exists t, h, k. auto.
    - exists 0%Z, (fun _ => 0%Z), (fun x => x). discriminate. }
  destruct X as (t & h & k & X). exists t, h, k. constructor.
  - eapply pj_program; eauto.
  - auto.
  - eapply data_payload; eauto.
  - exact U2.
  - eapply struct_has; eauto.
  - intros Y. congruence.
  - exact X.
Qed.
Lemma short_fit : forall md m, scanned md m -> short_signed md -> signed_fit m.
Proof.
  intros md m S SS s I SG. destruct (sig_of_decl _ _ S s I) as (d & ID & R). rewrite (ra_signed _ _ R) in SG. rewrite (ra_len _ _ R).
  specialize (SS d ID SG). lia.
Qed.
Lemma exact_decl : forall d s, read_as d s -> (exact_layout s <-> decl_exact d).
Proof. intros d s R. unfold exact_layout, decl_exact. rewrite (read_pos d s 0 R), (ra_len _ _ R). reflexivity. Qed.
Lemma value_decl : forall d s data, read_as d s -> sig_value s data = decl_value d data.
Proof. intros d s data R. unfold sig_value, decl_value. now rewrite (ra_signed _ _ R), (ra_order _ _ R), (ra_start _ _ R), (ra_len _ _ R). Qed.
Lemma field_decl : forall d s mm z, read_as d s -> (field_is mm s z <-> decl_is mm d z).
Proof. intros d s mm z R. unfold field_is, decl_is. destruct (read_names d s R) as (N & _). now rewrite N. Qed.

Theorem unpack_declared : forall srt bs e md bits data dl mm, project srt bs e -> floats_on e = false -> In md (file_msgs bs) -> md_sigs md <> [] -> short_signed md ->
  unpack_call bits md data dl mm -> counter_at e bits md mm -> monitored e md mm ->
  exists mm', unpack_decl e md mm = Ok (mm', Some (VI U32 (frame_id md))) /\
    forall d, In d (md_sigs md) -> decl_exact d -> decl_is mm' d (decl_value d data).
Proof.
  intros srt bs e md bits data dl mm P B I NE SS U CA MN. destruct (project_msg _ _ _ _ P I NE) as (m & J & S & N).
  destruct (receives_decl _ _ _ _ _ _ _ _ _ P B I S J N U CA MN) as (tick & hash & hook & R). pose proof (short_fit _ _ S SS) as SF.
  destruct (unpack_unsigned _ _ _ _ _ _ _ _ _ _ R SF) as (m1 & RUN & H1 & _). destruct (unpack_signed _ _ _ _ _ _ _ _ _ _ R SF) as (m2 & RUN2 & H2).
  rewrite RUN in RUN2. assert (m2 = m1) by congruence. subst m2. exists m1. split.
  - unfold unpack_decl, frame_id. unfold unpack, unpack_name in RUN. rewrite (rm_name _ _ (sc_read _ _ S)), (rm_id _ _ (sc_read _ _ S)) in RUN. exact RUN.
  - intros d ID EX. destruct (decl_of_sig _ _ S d ID) as (s & IS & RA). apply (field_decl d s m1 _ RA). rewrite <- (value_decl d s data RA).
    unfold sig_value, decoded. destruct (s_signed s) eqn:SG; [now apply H2|]. apply H1; auto. now apply (exact_decl d s).
Qed.

Lemma value_is : forall d s mm z, read_as d s -> decl_is mm d z -> value mm s = z.
Proof. intros d s mm z R H. apply (field_decl d s mm z R) in H. unfold value. unfold field_is in H. now rewrite H. Qed.
Lemma object_int : forall bits d v, to_obj (field_object bits d) v = Ok v -> exists t z, v = VI t z.
Proof.
  intros bits d v. unfold field_object. destruct (bits && (sd_len d <? 8)%N); cbn [to_obj]; unfold bind; destruct (to_int (field_type d) v); intros H; try discriminate;
    inversion H; eauto.
Qed.
Lemma sends_decl : forall srt bs e md m bits mx data hash mm, project srt bs e -> floats_on e = false -> In md (file_msgs bs) -> scanned md m ->
  In m (d_msgs (e_db e)) -> g_notempty m = true -> pack_call e bits md mx data mm -> computing e bits md hash mm ->
  sends e m bits 0 mx data (fun _ => 0%Z) hash mm.
Proof.
  intros srt bs e md m bits mx data hash mm P BF I S J NE [U1 U2 U3 U4 (U5 & U6)] [C1 C2 C3 C4].
  assert (CV : forall s, converted (e_macros e) (e_g e) m s = false) by (intros s; unfold converted; unfold floats_on in BF; now rewrite BF, andb_false_r).
  constructor.
  - eapply pj_program; eauto.
  - auto.
  - intros cs X. split; [apply CV|]. pose proof (checksum_in _ _ _ _ X) as IS. destruct (sig_of_decl _ _ S cs IS) as (d & ID & R).
    intros k K. rewrite (ra_len _ _ R) in K. pose proof (C3 d k ID (proj2 (checksum_sig _ _ _ _ _ P I S J d cs IS R) X) K) as E.
    now rewrite (read_pos d cs k R), (read_pos d cs 0 R).
  - eapply data_payload; eauto.
  - intros p t z X. unfold reports in X. destruct (struct_on e).
    + destruct U2 as (A & B & C). destruct X as [X|[X|[X|[]]]]; apply pair_equal_spec in X as [X _]; apply pair_equal_spec in X as [<- <-]; auto.
    + destruct U2 as (A & B). destruct X as [X|[X|[]]]; apply pair_equal_spec in X as [X _]; apply pair_equal_spec in X as [<- <-]; auto.
  - split; [exact U4|lia].
  - split; [exact U5|lia].
  - eapply struct_has; eauto.
  - intros rs X. pose proof (counter_in _ _ _ _ X) as IS. destruct (sig_of_decl _ _ S rs IS) as (d & ID & R). rewrite (ra_signed _ _ R), (ra_len _ _ R).
    apply (C2 d); [exact ID|exact (proj2 (counter_sig _ _ _ _ _ P I S J d rs IS R) X)|]. apply (field_decl d rs mm _ R).
    destruct (read_names d rs R) as (N & _). destruct (U3 d ID) as (v & V & W). destruct (object_int _ _ _ W) as (t & z & ->). rewrite <- N in V.
    unfold field_is, value, int_at. now rewrite V.
  - intros s IS X. rewrite CV in X. discriminate.
  - intros X. now apply C4; [apply becomes_scanned|].
Qed.
Lemma disjoint_decl : forall md m, scanned md m -> fits md -> disjoint_bits md -> no_overlap m.
Proof.
  intros md m S F D a b p IA IB (ka & KA & <-) (kb & KB & EB).
  destruct (sig_of_decl _ _ S a IA) as (da & JA & RA). destruct (sig_of_decl _ _ S b IB) as (db & JB & RB).
  rewrite (ra_len _ _ RA) in KA. rewrite (ra_len _ _ RB) in KB. change (sig_pos (s_order b) (s_start b) (s_len b) kb = sig_pos (s_order a) (s_start a) (s_len a) ka) in EB.
  rewrite (read_pos da a _ RA), (read_pos db b _ RB) in EB.
  destruct (read_names da a RA) as (NA & _). destruct (read_names db b RB) as (NB & _). rewrite NA, NB.
  apply (D da db (decl_pos da ka) JA JB); [exists ka; auto|exists kb; auto].
Qed.

Lemma covers_decl : forall d s p, read_as d s -> (sig_covers s p <-> decl_covers d p).
Proof.
  intros d s p R. split; intros (k & K & E); exists k.
  - rewrite (ra_len _ _ R) in K. split; [exact K|]. now rewrite <- (read_pos d s k R).
  - rewrite (ra_len _ _ R). split; [exact K|]. pose proof (read_pos d s k R) as X. rewrite E in X. now rewrite (ra_len _ _ R) in X.
Qed.
(** bits of numbers that agree modulo a power of two *)
Lemma mod_bits : forall a b n k, (0 <= k < n)%Z -> (a mod 2 ^ n = b mod 2 ^ n)%Z -> Z.testbit a k = Z.testbit b k.
Proof. intros a b n k K E. rewrite <- (Z.mod_pow2_bits_low a n k), <- (Z.mod_pow2_bits_low b n k) by lia. now rewrite E. Qed.

(** a run of Pack, signal by signal *)
Lemma pack_parts : forall srt bs e md m bits mx data tf hash mm, project srt bs e -> In md (file_msgs bs) -> scanned md m -> In m (d_msgs (e_db e)) ->
  disjoint_bits md -> sends e m bits 0 mx data tf hash mm -> (Z.of_N (md_dlc md) <= mx)%Z ->
  exists mm' data', pack_decl e md mm = Ok (mm', Some (VI U32 (frame_id md))) /\ frame e mm' data' /\
    (forall d s z k, In s (g_sigs m) -> read_as d s -> converted (e_macros e) (e_g e) m s = false -> ~ counter_decl e md d -> ~ checksum_decl e md d ->
       decl_is mm d z -> (0 <= k < Z.of_N (sd_len d))%Z -> payload_bit data' (decl_pos d k) = Z.testbit z k) /\
    (forall d s z k, In s (g_sigs m) -> read_as d s -> converted (e_macros e) (e_g e) m s = false -> counter_decl e md d -> ~ checksum_decl e md d ->
       decl_is mm d z -> (0 <= k < Z.of_N (sd_len d))%Z -> payload_bit data' (decl_pos d k) = Z.testbit (z + 1) k) /\
    (forall d s k, In s (g_sigs m) -> read_as d s -> converted (e_macros e) (e_g e) m s = true -> ~ checksum_decl e md d ->
       (0 <= k < Z.of_N (sd_len d))%Z -> payload_bit data' (decl_pos d k) = Z.testbit (tf s) k) /\
    (forall d, In d (md_sigs md) -> checksum_decl e md d ->
       exists data0, cleared d data' data0 /\
         forall k, (0 <= k < Z.of_N (sd_len d))%Z -> payload_bit data' (decl_pos d k) = Z.testbit (hash data0) k) /\
    (forall p, (0 <= p < 8 * Z.of_N (md_dlc md))%Z -> (forall d, In d (md_sigs md) -> ~ decl_covers d p) -> payload_bit data' p = false).
Proof.
  intros srt bs e md m bits mx data tf hash mm P I S J DB R MX.
  pose proof (pj_fits _ _ _ P md I) as F. pose proof (disjoint_decl _ _ S F DB) as NO.
  pose proof (rm_dlc _ _ (sc_read _ _ S)) as DL. pose proof (pm_ok _ _ _ _ _ P I S) as MO.
  destruct (sn_data _ _ _ _ _ _ _ _ _ R) as (_ & _ & LD).
  destruct (pack_bits _ _ _ _ _ _ _ _ _ R NO) as (m1 & d1 & RUN & PK & FR & LE & BY & BI & CL).
  rewrite (written_all mx m) in * by lia.
  assert (BI' : forall s d k, In s (g_sigs m) -> read_as d s -> (0 <= k < Z.of_N (sd_len d))%Z -> payload_bit d1 (decl_pos d k) = Z.testbit (value m1 s) k).
  { intros s d k IS RA K. rewrite <- (read_pos d s k RA). rewrite <- (ra_len _ _ RA) in K. pose proof (CodecThms.pos_in m s k MO IS K). rewrite BI by auto.
    replace (_ <? _)%Z with true by lia. now rewrite Z.bits_0. }
  exists m1, d1. split; [|split; [exact FR|split; [|split; [|split; [|split]]]]].
  - unfold pack_decl, frame_id. unfold pack, pack_name in RUN. rewrite (rm_name _ _ (sc_read _ _ S)), (rm_id _ _ (sc_read _ _ S)) in RUN. exact RUN.
  - intros d s z k IS RA CV NC NS Z K. rewrite (BI' s d k IS RA K).
    rewrite (pk_plain _ _ _ _ _ _ _ _ _ _ _ _ _ PK s IS); [now rewrite (value_is d s mm z RA Z)| | |exact CV].
    + intros X. apply NC. now apply (counter_sig _ _ _ _ _ P I S J d s).
    + intros X. apply NS. now apply (checksum_sig _ _ _ _ _ P I S J d s).
  - intros d s z k IS RA CV C NS Z K. rewrite (BI' s d k IS RA K).
    apply (counter_sig _ _ _ _ _ P I S J d s IS RA) in C.
    assert (X : checksum_on (e_macros e) (e_g e) m <> Some s) by (intros X; apply NS; now apply (checksum_sig _ _ _ _ _ P I S J d s)).
    destruct (pk_counter _ _ _ _ _ _ _ _ _ _ _ _ _ PK s C X CV) as [E _]. rewrite (value_is d s mm z RA Z) in E.
    apply (mod_bits _ _ (s_len s)); [rewrite (ra_len _ _ RA); lia|exact E].
  - intros d s k IS RA CV NS K. rewrite (BI' s d k IS RA K). rewrite (pk_scaled _ _ _ _ _ _ _ _ _ _ _ _ _ PK s IS); [reflexivity| |exact CV].
    intros X. apply NS. now apply (checksum_sig _ _ _ _ _ P I S J d s).
  - intros d ID C. destruct (decl_of_sig _ _ S d ID) as (s & IS & RA). apply (checksum_sig _ _ _ _ _ P I S J d s IS RA) in C.
    destruct (pk_checksum _ _ _ _ _ _ _ _ _ _ _ _ _ PK s C) as (d0 & CO & E & _). exists d0. split.
    + pose proof (pk_data _ _ _ _ _ _ _ _ _ _ _ _ _ PK) as C1. constructor.
      * now rewrite (co_len _ _ _ _ CO), (co_len _ _ _ _ C1).
      * apply (co_bytes _ _ _ _ CO).
      * intros p (k & K & <-). rewrite <- (read_pos d s k RA). rewrite <- (ra_len _ _ RA) in K. pose proof (CodecThms.pos_in m s k MO IS K).
        rewrite (CodecThms.composed_covered m _ _ _ s k MO NO CO) by (auto; rewrite <- (co_len _ _ _ _ C1); lia). rewrite String.eqb_refl, Z.bits_0, orb_false_r.
        rewrite CodecThms.payload_bit_initialised by lia. replace (_ <? _)%Z with true by lia. apply Z.bits_0.
      * intros p PB NC.
        pose proof (co_len _ _ _ _ CO) as L0. pose proof (co_len _ _ _ _ C1) as L1.
        destruct (Z_lt_le_dec p (8 * Z.of_nat (List.length d1))) as [PL|PL].
        2:{ unfold payload_bit. rewrite !nth_overflow by lia. now rewrite !Z.bits_0. }
        assert (X : payload_bit d0 p = true <-> payload_bit d1 p = true).
        { rewrite (co_bits _ _ _ _ CO p) by lia. rewrite (co_bits _ _ _ _ C1 p) by lia.
          assert (Y : set_by m (fun sg => if String.eqb (s_name sg) (s_name s) then 0%Z else value m1 sg) p <-> set_by m (value m1) p); [|tauto].
          split; intros (t & k & IT & K & EP & TB); exists t, k; (split; [exact IT|split; [exact K|split; [exact EP|]]]).
          - cbv beta in TB. destruct (String.eqb (s_name t) (s_name s)); [rewrite Z.bits_0 in TB; discriminate|exact TB].
          - cbv beta. destruct (String.eqb (s_name t) (s_name s)) eqn:EQ; [|exact TB]. apply String.eqb_eq in EQ. exfalso. apply NC.
            apply (covers_decl d s p RA). rewrite <- (CodecThms.name_inj m t s MO IT IS EQ). exists k. auto. }
        destruct (payload_bit d0 p), (payload_bit d1 p); tauto || (symmetry; tauto) || (exfalso; destruct X; intuition discriminate).
    + intros k K. rewrite (BI' s d k IS RA K). apply (mod_bits _ _ (s_len s)); [rewrite (ra_len _ _ RA); lia|exact E].
  - intros p PB NC. rewrite CL.
    + replace (_ <? _)%Z with true by lia. apply Z.bits_0.
    + lia.
    + intros s IS X. destruct (sig_of_decl _ _ S s IS) as (d & ID & RA). apply (NC d ID). now apply (covers_decl d s).
Qed.

Theorem pack_declared : forall srt bs e md bits mx data hash mm, project srt bs e -> floats_on e = false -> In md (file_msgs bs) -> md_sigs md <> [] -> disjoint_bits md ->
  pack_call e bits md mx data mm -> computing e bits md hash mm ->
  exists mm' data', pack_decl e md mm = Ok (mm', Some (VI U32 (frame_id md))) /\ frame e mm' data' /\
    (forall d z k, In d (md_sigs md) -> ~ counter_decl e md d -> ~ checksum_decl e md d -> decl_is mm d z -> (0 <= k < Z.of_N (sd_len d))%Z ->
       payload_bit data' (decl_pos d k) = Z.testbit z k) /\
    (forall d z k, In d (md_sigs md) -> counter_decl e md d -> ~ checksum_decl e md d -> decl_is mm d z -> (0 <= k < Z.of_N (sd_len d))%Z ->
       payload_bit data' (decl_pos d k) = Z.testbit (z + 1) k) /\
    (forall d, In d (md_sigs md) -> checksum_decl e md d ->
       exists data0, cleared d data' data0 /\
         forall k, (0 <= k < Z.of_N (sd_len d))%Z -> payload_bit data' (decl_pos d k) = Z.testbit (hash data0) k) /\
    (forall p, (0 <= p < 8 * Z.of_N (md_dlc md))%Z -> (forall d, In d (md_sigs md) -> ~ decl_covers d p) -> payload_bit data' p = false).
Proof.
  intros srt bs e md bits mx data hash mm P B I NE DB U CG. destruct (project_msg _ _ _ _ P I NE) as (m & J & S & N).
  pose proof (sends_decl _ _ _ _ _ _ _ _ _ _ P B I S J N U CG) as R. destruct U as [_ _ _ _ (_ & MX)].
  assert (CV : forall s, converted (e_macros e) (e_g e) m s = false) by (intros s; unfold converted; unfold floats_on in B; now rewrite B, andb_false_r).
  destruct (pack_parts _ _ _ _ _ _ _ _ _ _ _ P I S J DB R ltac:(lia)) as (m1 & d1 & RUN & FR & PL & CT & _ & CS & UC). exists m1, d1.
  split; [exact RUN|]. split; [exact FR|]. split; [|split; [|split; [exact CS|exact UC]]].
  - intros d z k ID NC NS Z K. destruct (decl_of_sig _ _ S d ID) as (s & IS & RA). now apply (PL d s z k).
  - intros d z k ID NC NS Z K. destruct (decl_of_sig _ _ S d ID) as (s & IS & RA). now apply (CT d s z k).
Qed.

(** the number a receiver finds *)
Lemma received : forall srt bs e md d z data2 data', project srt bs e -> In md (file_msgs bs) -> In d (md_sigs md) ->
  firstn (N.to_nat (md_dlc md)) data2 = firstn (N.to_nat (md_dlc md)) data' ->
  (forall k, (0 <= k < Z.of_N (sd_len d))%Z -> payload_bit data' (decl_pos d k) = Z.testbit z k) -> decl_carries d z -> decl_value d data2 = z.
Proof.
  intros srt bs e md d z data2 data' P I ID E BI C. assert (NE : md_sigs md <> []) by (destruct (md_sigs md); [contradiction|discriminate]).
  pose proof (pj_fits _ _ _ P md I) as F. pose proof (ft_len _ F d ID) as L.
  destruct (project_msg _ _ _ _ P I NE) as (m & J & S & _). destruct (decl_of_sig _ _ S d ID) as (s & IS & RA).
  rewrite <- (value_decl d s data2 RA). apply (packed_value m); [apply (scanned_ok md m S F), (pj_mdecl _ _ _ P md I)|exact IS| |unfold decl_carries in C; now rewrite (ra_signed _ _ RA), (ra_len _ _ RA)].
  intros k K. rewrite (ra_len _ _ RA) in K. rewrite (read_pos d s k RA). rewrite <- (BI k K). pose proof (ft_frame _ F d k ID K).
  apply (payload_bit_firstn _ _ (N.to_nat (md_dlc md))); auto; lia.
Qed.

(** a frame that one program packs is unpacked by another that was made from the same file *)
Theorem sent_and_received : forall srt1 srt2 bs e1 e2 md bits1 bits2 mx data hash mm1 mm2 dl data2,
  project srt1 bs e1 -> floats_on e1 = false -> project srt2 bs e2 -> floats_on e2 = false ->
  In md (file_msgs bs) -> md_sigs md <> [] -> disjoint_bits md -> short_signed md ->
  pack_call e1 bits1 md mx data mm1 -> computing e1 bits1 md hash mm1 ->
  unpack_call bits2 md data2 dl mm2 -> counter_at e2 bits2 md mm2 -> monitored e2 md mm2 ->
  exists mm1' data' mm2', pack_decl e1 md mm1 = Ok (mm1', Some (VI U32 (frame_id md))) /\ frame e1 mm1' data' /\
    (firstn (N.to_nat (md_dlc md)) data2 = firstn (N.to_nat (md_dlc md)) data' ->
       unpack_decl e2 md mm2 = Ok (mm2', Some (VI U32 (frame_id md))) /\
       forall d z, In d (md_sigs md) -> decl_exact d -> ~ checksum_decl e1 md d -> decl_is mm1 d z ->
         (~ counter_decl e1 md d -> decl_carries d z -> decl_is mm2' d z) /\
         (counter_decl e1 md d -> sd_signed d = false -> decl_is mm2' d ((z + 1) mod 2 ^ Z.of_N (sd_len d)))).
Proof.
  intros srt1 srt2 bs e1 e2 md bits1 bits2 mx data hash mm1 mm2 dl data2 P1 B1 P2 B2 I NE DB SS U1 CG U2 CA MN.
  destruct (pack_declared _ _ _ _ _ _ _ _ _ P1 B1 I NE DB U1 CG) as (m1 & d1 & RUN & FR & BI & BC & _).
  destruct (unpack_declared _ _ _ _ _ _ _ _ P2 B2 I NE SS U2 CA MN) as (m2 & RUN2 & H). exists m1, d1, m2. split; [exact RUN|]. split; [exact FR|].
  intros E. split; [exact RUN2|]. intros d z ID EX NS Z. split.
  - intros NC C. rewrite <- (received _ _ _ _ d z data2 d1 P1 I ID E (fun k K => BI d z k ID NC NS Z K) C). now apply H.
  - intros C SG. rewrite <- (received _ _ _ _ d ((z + 1) mod 2 ^ Z.of_N (sd_len d)) data2 d1 P1 I ID E); [now apply H| |].
    + intros k K. rewrite (BC d z k ID C NS Z K). symmetry. apply Z.mod_pow2_bits_low. lia.
    + unfold decl_carries, carries. rewrite SG. apply Z.mod_pos_bound. apply Z.pow_pos_nonneg; lia.
Qed.

(** nothing is asked of programs without counters, checksums and monitors *)
Lemma basic_parts : forall e bits md hash mm, monitors_on e = false -> uncomputed e ->
  counter_at e bits md mm /\ monitored e md mm /\ computing e bits md hash mm.
Proof.
  intros e bits md hash mm MO U. assert (C : forall d, ~ counter_decl e md d) by (intros d (m & s & (J & _) & X & _); destruct (U m J); congruence).
  assert (K : forall d, ~ checksum_decl e md d) by (intros d (m & s & (J & _) & X & _); destruct (U m J); congruence).
  assert (A : counter_at e bits md mm) by (intros d _ X; now apply C in X).
  split; [exact A|]. split; [intros X; congruence|]. constructor.
  - exact A.
  - intros d z _ X. now apply C in X.
  - intros d k _ X. now apply K in X.
  - intros m (J & _) X. destruct (U m J). congruence.
Qed.
