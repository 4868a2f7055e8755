(** From one run of the generator to the functions of the emitted source. *)

From Coq Require Import ZArith NArith List String Ascii Bool Lia ZifyBool Permutation.
From Verif Require Import Base Dbl CSyntax CSem CRun Types Formatter SigPrinter Writer Settings
  MainGen App CodecSpec MsgSpec LexLemmas BitLemmas CSemLemmas Chunks UnpackProof PPProof BodyLemmas
  UnpackBody UnpackFun PackProof PackBody PackFun SourceFun DriverSpec.
Import ListNotations.
Open Scope Z_scope.

(** ** Settings *)

Lemma len_map : forall f s, String.length (map_string f s) = String.length s.
Proof. induction s; cbn; auto. Qed.

Lemma all_map : forall f P s, (forall c, P c = true -> P (f c) = true) -> all_chars P s = true ->
  all_chars P (map_string f s) = true.
Proof.
  induction s as [|c s IH]; intros H A; [reflexivity|]. cbn [map_string all_chars] in *.
  apply andb_true_iff in A. destruct A as [A B]. rewrite H, IH; auto.
Qed.
Lemma upper_id : forall c, is_idchar c = true -> is_idchar (to_upper c) = true.
Proof. intros c. destruct c as [[] [] [] [] [] [] [] []]; vm_compute; auto. Qed.
Lemma lower_id : forall c, is_idchar c = true -> is_idchar (to_lower c) = true.
Proof. intros c. destruct c as [[] [] [] [] [] [] [] []]; vm_compute; auto. Qed.
Lemma upper_start : forall c, is_idstart c = true -> is_idstart (to_upper c) = true.
Proof. intros c. destruct c as [[] [] [] [] [] [] [] []]; vm_compute; auto. Qed.
Lemma lower_start : forall c, is_idstart c = true -> is_idstart (to_lower c) = true.
Proof. intros c. destruct c as [[] [] [] [] [] [] [] []]; vm_compute; auto. Qed.
Lemma upper_ident : forall s, is_ident s = true -> is_ident (str_toupper s) = true.
Proof.
  intros [|c s] H; [discriminate|]. unfold str_toupper. cbn [map_string is_ident] in *.
  apply andb_true_iff in H. destruct H as [A B]. rewrite upper_start by auto.
  rewrite all_map; auto using upper_id.
Qed.
Lemma lower_ident : forall s, is_ident s = true -> is_ident (str_tolower s) = true.
Proof.
  intros [|c s] H; [discriminate|]. unfold str_tolower. cbn [map_string is_ident] in *.
  apply andb_true_iff in H. destruct H as [A B]. rewrite lower_start by auto.
  rewrite all_map; auto using lower_id.
Qed.

Lemma comment_line_info : forall a r, no_nl a = true -> info_ok r -> info_ok ("//" ++ a ++ nl ++ r).
Proof.
  intros a r A [FU FC]. split.
  - right. destruct FU as [->|[q ->]].
    + exists ("//" ++ a)%string. rewrite !app_nil_r, ?app_assoc. reflexivity.
    + exists ("//" ++ a ++ nl ++ q)%string. rewrite !app_assoc. reflexivity.
  - replace ("//" ++ a ++ nl ++ r)%string with (("//" ++ a) ++ String NL r)%string
      by (unfold nl; rewrite !app_assoc; reflexivity).
    rewrite lines_line by (rewrite no_nl_app; exact A).
    constructor; [exists a; split; auto|exact FC].
Qed.
Lemma info_nil : info_ok "".
Proof. split; [now left|constructor]. Qed.

Lemma common_ok : forall date, match date with Some t => no_nl t = true | None => True end ->
  info_ok (common_info date).
Proof.
  intros date D. unfold common_info.
  apply (comment_line_info " Generator version : v3.1"); [reflexivity|].
  destruct date as [t|]; [|apply info_nil].
  replace ("// Generation time   : " ++ t ++ nl)%string with ("//" ++ (" Generation time   : " ++ t) ++ nl ++ "")%string
    by (rewrite app_nil_r, ?app_assoc; reflexivity).
  apply comment_line_info; [|apply info_nil]. rewrite no_nl_app. exact D.
Qed.

Lemma no_nl_rev : forall s, no_nl (rev_string s) = no_nl s.
Proof.
  induction s as [|c s IH]; [reflexivity|]. rewrite rev_cons, no_nl_app, IH. unfold no_nl. cbn [has_char].
  destruct (Ascii.eqb NL c), (has_char NL s); reflexivity.
Qed.
Lemma extract_nonl : forall s r, no_nl s = true -> no_nl r = true -> no_nl (extract_file_name_from r s) = true.
Proof.
  induction s as [|c s IH]; intros r S R; cbn [extract_file_name_from].
  - now rewrite no_nl_rev.
  - assert (A : no_nl s = true /\ Ascii.eqb NL c = false).
    { unfold no_nl in S. cbn [has_char] in S. unfold no_nl. destruct (Ascii.eqb NL c), (has_char NL s); auto; discriminate. }
    destruct A as [A B]. destruct (is_sep c); apply IH; auto.
    unfold no_nl in *. cbn [has_char]. now rewrite B.
Qed.
Lemma driver_info_ok : forall dbc, no_nl dbc = true -> info_ok (driver_info dbc).
Proof.
  intros dbc D. unfold driver_info.
  replace ("// DBC filename      : " ++ extract_file_name dbc ++ nl)%string
    with ("//" ++ (" DBC filename      : " ++ extract_file_name dbc) ++ nl ++ "")%string
    by (rewrite app_nil_r, ?app_assoc; reflexivity).
  apply comment_line_info; [|apply info_nil]. rewrite no_nl_app.
  unfold extract_file_name. rewrite extract_nonl by auto. reflexivity.
Qed.

Lemma tmpb_short : forall s, (String.length s <= 1000)%nat -> tmpb s = s.
Proof. intros. unfold tmpb. apply cut_short. lia. Qed.

Lemma configure_ok : forall drv out date dbc hi low nc ni nf,
  is_ident drv = true -> (String.length drv <= 900)%nat ->
  match date with Some t => no_nl t = true | None => True end -> no_nl dbc = true ->
  0 <= hi < 2 ^ 32 -> 0 <= low < 2 ^ 32 ->
  let s := configure drv out (common_info date) (driver_info dbc) hi low nc ni nf in
  src_ok (st_g s) (f_coreh (st_f s)).
Proof.
  intros drv out date dbc hi low nc ni nf I LN D B H1 H2. cbv zeta.
  assert (LU : String.length (str_toupper drv) = String.length drv) by apply len_map.
  assert (LL : String.length (str_tolower drv) = String.length drv) by apply len_map.
  pose proof (upper_ident _ I) as IU. pose proof (lower_ident _ I) as IL.
  assert (ID : forall x, all_chars is_idchar x = true -> is_ident (str_toupper drv ++ x) = true)
    by (intros; now apply ident_prefix).
  unfold configure. constructor; cbn [st_g st_f n_orig n_usestruct n_cominfo n_drvinfo n_verhi n_verlow f_coreh n_hi n_low];
    rewrite ?tmpb_short by (rewrite !app_len, ?LU; cbn [String.length]; lia).
  - constructor; cbn [n_usesigfloat n_usemon n_useroll n_usecsm n_DRV n_drv];
      rewrite ?tmpb_short by (rewrite !app_len, ?LU; cbn [String.length]; lia); auto.
    + now apply ident_chars.
    + rewrite !app_len, LU. cbn [String.length]. lia.
  - apply ID. reflexivity.
  - now apply ident_chars.
  - now apply common_ok.
  - now apply driver_info_ok.
  - split; nonl; rewrite (no_nl_ident' _ IU); reflexivity.
  - nonl. rewrite (no_nl_ident' _ IL). reflexivity.
  - unfold pu. change (2 ^ 32) with 4294967296 in H1, H2.
    pose proof (dec_len32 (Z.to_N hi)) as D1. pose proof (dec_len32 (Z.to_N low)) as D2.
    change (2 ^ 32)%N with 4294967296%N in D1, D2. specialize (D1 ltac:(lia)). specialize (D2 ltac:(lia)).
    rewrite !app_len, LU, LL. cbn [String.length]. repeat split; try lia.
Qed.

(** ** Line lengths *)

Lemma tail_bytes : forall q o bn r c, In c (tail_chunks q o bn r) ->
  match o with Intel => k_byte c < bn | Motorola => bn < k_byte c end.
Proof.
  induction q; intros o bn r c I; cbn [tail_chunks] in I.
  - destruct (r =? 0); [destruct I|]. destruct I as [<-|[]]. cbn [k_byte]. destruct o; cbn [next]; lia.
  - destruct I as [<-|I]; [cbn [k_byte]; destruct o; cbn [next]; lia|].
    apply IHq in I. destruct o; cbn [next] in I; lia.
Qed.
Lemma tail_nodup : forall q o bn r, NoDup (map k_byte (tail_chunks q o bn r)).
Proof.
  induction q; intros o bn r; cbn [tail_chunks].
  - destruct (r =? 0); cbn [map]; repeat constructor. intros [].
  - cbn [map k_byte]. constructor; auto. intros I. apply in_map_iff in I. destruct I as (c & E & I).
    apply tail_bytes in I. destruct o; lia.
Qed.
Lemma chunks_nodup : forall o start len, NoDup (map k_byte (chunks o start len)).
Proof.
  intros. unfold chunks, chunks_at. cbv zeta. destruct (_ <=? _).
  - cbn [map]. repeat constructor. intros [].
  - cbn [map k_byte]. constructor; [|apply tail_nodup]. intros I. apply in_map_iff in I. destruct I as (c & E & I).
    apply tail_bytes in I. destruct o; lia.
Qed.
Lemma filter_one : forall i l, NoDup (map k_byte l) -> (List.length (filter (fun ch => (k_byte ch =? i)%Z) l) <= 1)%nat.
Proof.
  intros i. induction l as [|c l IH]; intros N; cbn [filter]; [cbn; lia|].
  cbn [map] in N. apply NoDup_cons_iff in N. destruct N as [N1 N2]. specialize (IH N2).
  destruct (k_byte c =? i) eqn:E; [|exact IH]. cbn [List.length].
  destruct (filter (fun ch => k_byte ch =? i) l) as [|c' l'] eqn:F; [cbn; lia|].
  exfalso. apply N1. assert (I : In c' (filter (fun ch => k_byte ch =? i) l)) by (rewrite F; now left).
  apply filter_In in I. destruct I as [I1 I2]. apply in_map_iff. exists c'. split; [lia|auto].
Qed.

Lemma in_byte_spec : forall sg i, in_byte sg i = true <->
  exists k, 0 <= k < s_len sg /\ sig_pos (s_order sg) (s_start sg) (s_len sg) k / 8 = i.
Proof.
  intros. unfold in_byte. rewrite existsb_exists. split.
  - intros (k & I & E). apply in_seq in I. exists (Z.of_nat k). lia.
  - intros (k & K & E). exists (Z.to_nat k). split; [apply in_seq; lia|]. rewrite Z2Nat.id by lia. lia.
Qed.

Lemma sig_parts_load : forall dlc i sg, sig_ok dlc sg ->
  Z.of_nat (load (sig_parts i sg)) <= if in_byte sg i then Z.of_nat (String.length (s_name sg)) + 63 else 0.
Proof.
  intros dlc i sg OK. pose proof (ok_len _ _ OK) as LEN.
  pose proof (filter_one i (sig_chunks sg) (chunks_nodup _ _ _)) as F1. unfold sig_parts.
  destruct (filter (fun ch => k_byte ch =? i) (sig_chunks sg)) as [|c l] eqn:F.
  - cbn [map load]. destruct (in_byte sg i); lia.
  - destruct l; [|cbn in F1; lia]. cbn [map load fst].
    assert (I : In c (filter (fun ch => k_byte ch =? i) (sig_chunks sg))) by (rewrite F; now left).
    apply filter_In in I. destruct I as [I1 I2].
    destruct (chunks_spec (s_order sg) (s_start sg) (s_len sg) c ltac:(lia) (ok_start _ _ OK) I1)
      as (A1 & A2 & A3 & A4 & A5 & A6 & A7).
    replace (in_byte sg i) with true; [lia|]. symmetry. apply in_byte_spec.
    exists (k_pos c). specialize (A7 0 ltac:(lia)). rewrite Z.add_0_r in A7. split; [lia|]. rewrite A7. lia.
Qed.

Lemma load_app : forall a b, load (a ++ b) = (load a + load b)%nat.
Proof. induction a; intros; cbn [load List.app]; auto. rewrite IHa. lia. Qed.

Lemma byte_parts_load : forall dlc i sgs, (forall sg, In sg sgs -> sig_ok dlc sg) ->
  Z.of_nat (load (byte_parts sgs i)) <= names_size (filter (fun sg => in_byte sg i) sgs).
Proof.
  intros dlc i. induction sgs as [|sg r IH]; intros OK; [cbn; lia|].
  unfold byte_parts in *. cbn [flat_map filter]. rewrite load_app.
  specialize (IH (fun s I => OK s (or_intror I))).
  pose proof (sig_parts_load dlc i sg (OK sg (or_introl eq_refl))).
  destruct (in_byte sg i); cbn [names_size]; lia.
Qed.

Lemma short_few : forall m, msg_ok m -> short_lines m -> few_parts m.
Proof.
  intros m MO S i. eapply Z.le_trans; [|apply (S i)]. apply (byte_parts_load (g_dlc m)). apply MO.
Qed.

(** ** Signals that do not overlap give short lines *)

Lemma names_size_le : forall l, (forall sg, In sg l -> (String.length (s_name sg) <= 1000)%nat) ->
  names_size l <= 1063 * Z.of_nat (List.length l).
Proof.
  induction l as [|sg l IH]; intros H; cbn [names_size List.length]; [lia|].
  specialize (IH (fun s I => H s (or_intror I))). specialize (H sg (or_introl eq_refl)). lia.
Qed.

(** a bit of byte [i] that belongs to the signal *)
Definition pick (i : Z) (sg : signal) : Z :=
  match find (fun k => sig_pos (s_order sg) (s_start sg) (s_len sg) (Z.of_nat k) / 8 =? i)
             (seq 0 (Z.to_nat (s_len sg))) with
  | Some k => sig_pos (s_order sg) (s_start sg) (s_len sg) (Z.of_nat k)
  | None => 0
  end.
Lemma pick_spec : forall i sg, in_byte sg i = true -> sig_covers sg (pick i sg) /\ pick i sg / 8 = i.
Proof.
  intros i sg H. unfold pick. destruct (find _ _) as [k|] eqn:F.
  - apply find_some in F. destruct F as [I E]. apply in_seq in I. split; [|lia].
    exists (Z.of_nat k). split; [lia|reflexivity].
  - unfold in_byte in H. apply existsb_exists in H. destruct H as (k & I & E).
    pose proof (find_none _ _ F k I) as N. cbn beta in N. congruence.
Qed.

Lemma byte_count : forall m i, msg_ok m -> no_overlap m ->
  (List.length (filter (fun sg => in_byte sg i) (g_sigs m)) <= 8)%nat.
Proof.
  intros m i MO NO. set (l := filter (fun sg => in_byte sg i) (g_sigs m)).
  assert (ND : NoDup (map (pick i) l)).
  { assert (NS : NoDup (map s_name (g_sigs m))) by now apply names_nodup.
    assert (NL : NoDup (map s_name l)).
    { subst l. clear - NS. induction (g_sigs m) as [|a r IH]; cbn [filter]; [constructor|].
      cbn [map] in NS. apply NoDup_cons_iff in NS. destruct NS as [N1 N2].
      destruct (in_byte a i); auto. cbn [map]. constructor; auto. intros I. apply N1.
      apply in_map_iff in I. destruct I as (x & E & I). apply filter_In in I. rewrite <- E. now apply in_map. }
    assert (IN : forall a, In a l -> In a (g_sigs m) /\ in_byte a i = true) by (intros a A; now apply filter_In in A).
    clear NS. clearbody l. induction l as [|a r IH]; cbn [map]; [constructor|].
    cbn [map] in NL. apply NoDup_cons_iff in NL. destruct NL as [N1 N2].
    constructor; [|apply IH; auto; intros x X; apply IN; now right].
    intros I. apply in_map_iff in I. destruct I as (b & E & I). apply N1.
    destruct (IN a (or_introl eq_refl)) as [A1 A2]. destruct (IN b (or_intror I)) as [B1 B2].
    replace (s_name a) with (s_name b); [now apply in_map|].
    apply (NO b a (pick i a)); auto; [rewrite <- E|]; apply pick_spec; auto. }
  assert (IC : incl (map (pick i) l) (map (fun k => 8 * i + Z.of_nat k) (seq 0 8))).
  { intros p P. apply in_map_iff in P. destruct P as (sg & <- & I). apply filter_In in I.
    destruct (pick_spec i sg (proj2 I)) as [_ E]. apply in_map_iff.
    exists (Z.to_nat (pick i sg mod 8)). split; [lia|]. apply in_seq. lia. }
  pose proof (NoDup_incl_length ND IC) as H. rewrite !map_length, seq_length in H. exact H.
Qed.

Lemma no_overlap_short : forall m, msg_ok m -> no_overlap m -> short_lines m.
Proof.
  intros m MO NO i. pose proof (byte_count m i MO NO).
  pose proof (names_size_le (filter (fun sg => in_byte sg i) (g_sigs m))) as N.
  eapply Z.le_trans; [apply N|lia].
  intros sg I. apply filter_In in I. apply (mo_sigs m MO sg (proj1 I)).
Qed.

(** ** The emitted source *)

Lemma loaded_self : forall ms xs, Forall2 loaded ms xs -> Forall (fun x => loaded (x_msg x) x) xs /\ ms = map x_msg xs.
Proof.
  induction 1 as [|m x ms xs L F [IH1 IH2]]; [split; constructor|].
  pose proof (ld_msg m x L) as E. subst ms. split; [constructor; auto; now rewrite E|]. cbn [map]. now rewrite E.
Qed.
Lemma self_loaded : forall xs, Forall (fun x => loaded (x_msg x) x) xs -> Forall2 loaded (map x_msg xs) xs.
Proof. induction 1; constructor; auto. Qed.

Lemma load_messages_map : forall l, load_messages l = map_res load_message l.
Proof. induction l as [|m r IH]; [reflexivity|]. cbn [load_messages map_res]. now rewrite IH. Qed.

(** the messages in the order of the file *)
Lemma driver_unit : forall drv g d h c M, driver drv g d h c ->
  exists ms coreh, Permutation ms (d_msgs d) /\ src_ok g coreh /\ n_orig g = drv /\
    (forall m, In m ms -> emit_ok m) /\ NoDup (map g_name ms) /\
    compile M c = {| u_macros := with_defaults M;
                     u_funs := ext_def :: flat_map (msg_defs (with_defaults M) g) ms |}.
Proof.
  intros drv g d h c M [RUN [DI DL] MS ND].
  destruct RUN as (srt & out & date & dbc & hi & low & nc & ni & nf & rest & SR & DT & DB & HI & LO & G & GM).
  set (s := configure drv out (common_info date) (driver_info dbc) hi low nc ni nf) in *.
  assert (EO : forall m, In m (d_msgs d) -> emit_ok m).
  { intros m I. destruct (MS m I) as (A & B & C). constructor; auto. now apply short_few. }
  destruct (map_res_loaded (d_msgs d)) as (xs0 & LM & F0).
  { intros m I. split; apply (EO m I). }
  unfold generate_main in GM. rewrite load_messages_map, LM in GM. cbn [bind] in GM.
  set (xs := srt ciexpr (fun x => g_id (x_msg x)) xs0) in *.
  assert (PX : Permutation xs xs0) by apply SR.
  destruct (loaded_self _ _ F0) as [FS EM].
  assert (FX : Forall2 loaded (map x_msg xs) xs).
  { apply self_loaded. apply (Permutation_Forall (Permutation_sym PX)). exact FS. }
  assert (PM : Permutation (map x_msg xs) (d_msgs d)) by (rewrite EM; now apply Permutation_map).
  assert (IM : forall m, In m (map x_msg xs) -> emit_ok m).
  { intros m I. apply EO. eapply Permutation_in; eauto. }
  pose proof (configure_ok drv out date dbc hi low nc ni nf DI DL DT DB HI LO) as SO. cbv zeta in SO. fold s in SO.
  destruct (source_compiles M (st_g s) (f_coreh (st_f s)) (map x_msg xs) xs SO FX (fun m I _ => IM m I)) as (t & ES & CP).
  destruct (main_header (st_g s) (d_maxdlc d) xs) as [hd| |]; cbn [bind] in GM; try discriminate.
  rewrite ES in GM. cbn [bind] in GM. injection GM as _ <- _.
  exists (map x_msg xs), (f_coreh (st_f s)). subst g.
  split; [exact PM|]. split; [exact SO|]. split; [reflexivity|]. split; [exact IM|].
  split; [|exact CP].
  eapply Permutation_NoDup; [|exact ND]. apply Permutation_map. now apply Permutation_sym.
Qed.

Lemma unit_ext_ok : forall n M fs user calls, find_fun "__ext_sig__" fs = Some ext_def ->
  ext_ok (unit_ctx n {| u_macros := M; u_funs := fs |} user calls).
Proof.
  intros n M fs user calls F. exists n, (leaf_ctx M). split; [reflexivity|]. split; [reflexivity|].
  cbn [c_funs unit_ctx u_funs]. rewrite F. reflexivity.
Qed.

(** ** Unpack *)

Lemma void_exec : forall n c m dl, m_scal m "dlc_" = Some (LInt U8, VI U8 dl) -> lookup "dlc_" (c_macros c) = None ->
  exec (S n) c m s_void = Ok (m, None).
Proof.
  intros n c m dl E NF. unfold s_void. cbn [exec exec_expr].
  rewrite (eval_var (S n) c m [] "dlc_" _ _ eq_refl NF E). reflexivity.
Qed.

Lemma swrap_range : forall w z, 1 <= w -> - 2 ^ (w - 1) <= swrap w z < 2 ^ (w - 1).
Proof.
  intros w z W. unfold swrap. pose proof (pow2_pos (w - 1) ltac:(lia)).
  assert (2 ^ w = 2 * 2 ^ (w - 1)) by (rewrite <- Z.pow_succ_r by lia; f_equal; lia).
  pose proof (Z.mod_pos_bound z (2 ^ w) ltac:(lia)). destruct (Z.ltb_spec (z mod 2 ^ w) (2 ^ (w - 1))); lia.
Qed.

Definition lty_ok (l : lty) : Prop := match l with LBits t w => 1 <= w <= width t | _ => True end.
Lemma to_obj_twice : forall l v w, lty_ok l -> to_obj l v = Ok w -> to_obj l w = Ok w.
Proof.
  intros [t|t w| |] v x L H; cbn [to_obj lty_ok] in *; try discriminate.
  - destruct (to_int t v) as [z| |] eqn:T; try discriminate. injection H as <-. cbn [to_int bind].
    rewrite conv_id; [reflexivity|]. destruct v as [s y|y]; cbn [to_int] in T.
    + injection T as <-. apply fits_conv.
    + destruct (dtrunc y); [|discriminate]. destruct (fits t z0) eqn:F; [|discriminate]. now injection T as <-.
  - destruct (to_int t v) as [z| |] eqn:T; try discriminate. injection H as <-. cbn [to_int bind].
    assert (2 ^ w <= 2 ^ width t) by (apply Z.pow_le_mono_r; lia).
    assert (2 ^ (w - 1) <= 2 ^ (width t - 1)) by (apply Z.pow_le_mono_r; lia).
    destruct (is_signed t) eqn:S; cbn [orb].
    + pose proof (swrap_range w z ltac:(lia)).
      rewrite (conv_id t); [|unfold fits, ty_min, ty_max; rewrite S; lia].
      now rewrite (swrap_carries w) by (unfold carries; lia).
    + pose proof (Z.mod_pos_bound z (2 ^ w) ltac:(lia)). unfold uwrap.
      rewrite (conv_id t); [|unfold fits, ty_min, ty_max; rewrite S; lia].
      now rewrite (Z.mod_small (z mod 2 ^ w)) by lia.
  - injection H as <-. reflexivity.
Qed.
Lemma field_lty : forall bits dlc sg, sig_ok dlc sg -> lty_ok (field_ty bits sg).
Proof.
  intros bits dlc sg OK. unfold field_ty. destruct (_ && _) eqn:B; cbn [lty_ok]; auto.
  pose proof (ok_len _ _ OK). destruct (ok_type _ _ OK). lia.
Qed.
Lemma phys_lty : forall sg, lty_ok (phys_ty sg).
Proof. intros. unfold phys_ty. destruct (s_double sg); exact Logic.I. Qed.

Lemma unp_value : forall sg d, 1 <= s_len sg -> exact_layout sg -> unp sg d = sig_value sg d.
Proof.
  intros sg d L E. unfold unp, sig_value, decoded. rewrite unpacked_exact by (auto; lia). reflexivity.
Qed.

Lemma unp_testbit : forall sg d k, 0 <= k < s_len sg ->
  Z.testbit (unp sg d) k = negb (dropped sg k) && payload_bit d (sig_pos (s_order sg) (s_start sg) (s_len sg) k).
Proof.
  intros sg d k K. unfold unp. set (u := unpacked _ _ _ _).
  assert (B : Z.testbit u k = negb (dropped sg k) && payload_bit d (sig_pos (s_order sg) (s_start sg) (s_len sg) k)).
  { unfold u, unpacked. rewrite bits_val_testbit by lia. rewrite Z2Nat.id by lia. replace (k <? s_len sg) with true by lia. reflexivity. }
  destruct (s_signed sg); [|exact B]. rewrite <- B. unfold twos. destruct (u <? 2 ^ (s_len sg - 1)); [reflexivity|].
  rewrite <- (Z.mod_pow2_bits_low (u - 2 ^ s_len sg) (s_len sg) k) by lia.
  rewrite <- (Z.mod_pow2_bits_low u (s_len sg) k) by lia. f_equal.
  rewrite <- (Z_mod_plus_full u (-1) (2 ^ s_len sg)). f_equal; lia.
Qed.
Lemma from_phys : forall n c g bits pf sg dlc, sig_ok dlc sg -> from_raw n c g bits pf sg -> phys_ok n c g bits pf sg.
Proof.
  intros n c g bits pf sg dlc OK F m z C E A. pose proof (ok_len _ _ OK).
  destruct (F m z C) as (w & EV & TO); eauto.
  - exists (stored (field_ty bits sg) z). split; [exact E|]. rewrite stored_elt. 
    rewrite (store_carries bits sg _ z (ok_type _ _ OK)) by (auto; lia). now rewrite stored_elt.
  - unfold int_at. unfold fpath in E. unfold member. rewrite E, stored_elt. reflexivity.
Qed.

Lemma has_type_eq : forall m m' p t, m_scal m' p = m_scal m p -> has_type m p t -> has_type m' p t.
Proof. intros m m' p t E (v & A & B). exists v. now rewrite E. Qed.

Lemma sigs_paths_in : forall sgs q, sigs_paths sgs q -> exists sg, In sg sgs /\
  (q = member (s_name sg) \/ s_simple sg = false /\ q = member (s_namefloat sg)).
Proof.
  intros sgs q (x & I & ->). unfold sigs_names in I. apply in_flat_map in I. destruct I as (sg & IS & IX).
  exists sg. split; auto. unfold sig_names in IX. destruct (s_simple sg) eqn:S; destruct IX as [<-|IX]; auto.
  - contradiction.
  - destruct IX as [<-|[]]. auto.
Qed.
Lemma not_mon : forall msg, msg_ok msg -> forall q, sigs_paths (g_sigs msg) q -> ~ is_monitor q.
Proof.
  intros msg MO q S (f & E). destruct (sigs_paths_in _ _ S) as (sg & I & [->|[SI ->]]);
    pose proof (mo_sigs _ MO sg I) as OK.
  - eapply ident_no_dot; [|exact E]. apply OK.
  - eapply ident_no_dot; [|exact E]. apply (ok_phys _ _ OK SI).
Qed.
Lemma path_inj : forall a b, member a = member b -> a = b.
Proof. intros a b H. unfold member in H. cbn in H. congruence. Qed.
Lemma expt_not_sig : forall msg sg, msg_ok msg -> roll_sig msg = Some sg -> ~ sigs_paths (g_sigs msg) (expected sg).
Proof.
  intros msg sg MO R (x & I & E). apply path_inj in E. destruct (mo_roll _ MO sg R) as [_ N]. apply N.
  rewrite E. unfold member_names, phys_names.
  eapply Permutation_in; [|exact I]. apply sigs_names_perm.
Qed.
Lemma expt_not_mon : forall msg sg, msg_ok msg -> roll_sig msg = Some sg -> ~ is_monitor (expected sg).
Proof.
  intros msg sg MO R (f & E). eapply ident_no_dot; [|exact E].
  apply ident_prefix; [|reflexivity]. apply (mo_sigs _ MO sg). unfold roll_sig in R.
  destruct (g_roll msg); [|discriminate]. now apply nth_error_In in R.
Qed.
Lemma sig_in_paths : forall sgs sg, In sg sgs -> sigs_paths sgs (member (s_name sg)).
Proof.
  intros sgs sg I. exists (s_name sg). split; [|reflexivity]. unfold sigs_names. apply in_flat_map.
  exists sg. split; auto. unfold sig_names. destruct (s_simple sg); now left.
Qed.
Lemma phys_in_paths : forall sgs sg, In sg sgs -> s_simple sg = false -> sigs_paths sgs (member (s_namefloat sg)).
Proof.
  intros sgs sg I S. exists (s_namefloat sg). split; [|reflexivity]. unfold sigs_names. apply in_flat_map.
  exists sg. split; auto. unfold sig_names. rewrite S. right. now left.
Qed.

Lemma roll_in : forall msg sg, roll_sig msg = Some sg -> In sg (g_sigs msg).
Proof. intros msg sg R. unfold roll_sig in R. destruct (g_roll msg); [|discriminate]. now apply nth_error_In in R. Qed.
Lemma csm_in : forall msg sg, csm_sig msg = Some sg -> In sg (g_sigs msg).
Proof. intros msg sg R. unfold csm_sig in R. destruct (g_csm msg); [|discriminate]. now apply nth_error_In in R. Qed.

Lemma int_flag : forall m p b, m_scal m p = Some (flag_obj b) -> int_at m p = Some (flag b).
Proof. intros m p b E. unfold int_at. now rewrite E. Qed.

Theorem unpack_run : forall n drv g d0 h src M user calls msg bits d dl tick hash hook pf m,
  driver drv g d0 h src -> In msg (d_msgs d0) -> g_notempty msg = true ->
  let u := compile M src in
  let U := u_macros u in
  let c := unit_ctx n u user calls in
  locals_free U -> id_consts U msg -> signed_fit msg ->
  payload m "_d" msg d -> m_scal m "dlc_" = Some (LInt U8, VI U8 dl) -> 0 <= dl < 256 ->
  has_struct (defined (n_usesigfloat g) U) (defined (n_useroll g) U) bits msg m ->
  (defined (n_usesigfloat g) U = true ->
   forall sg, In sg (g_sigs msg) -> s_simple sg = false -> from_raw (S n) c g bits pf sg) ->
  (defined (n_usemon g) U = true -> monitors (S n) c g msg m tick hash hook) ->
  exists m', run_fun (S n) c (u_funs u) (unpack_name drv msg) m = Ok (m', Some (VI U32 (g_id msg))) /\
    unpacked_to bits (defined (n_usesigfloat g) U) (defined (n_useroll g) U) msg d pf m m' /\
    keeps_rest U g msg m m' /\
    (defined (n_usemon g) U = true ->
     exists m1, m' = hook m1 /\ monitored U g msg bits d dl tick hash m m1 /\
                (forall sg, counter_on U g msg = Some sg -> m_scal m' (expected sg) = m_scal m1 (expected sg))).
Proof.
  intros n drv g d0 h src M user calls msg bits d dl tick hash hook pf m DR IM NE u U c LF IC SF (AR & BY & DL) ED DR8 HS PF MN.
  destruct (driver_unit drv g d0 h src M DR) as (ms & coreh & PM & SO & NO & EO & ND & CP).
  assert (IMS : In msg ms) by (eapply Permutation_in; [apply Permutation_sym; eauto|auto]).
  pose proof (eo_msg _ (EO _ IMS)) as MO.
  assert (MU : c_macros c = U) by reflexivity.
  assert (UM : U = with_defaults M) by (subst U u; rewrite CP; reflexivity).
  assert (UF : u_funs u = ext_def :: flat_map (msg_defs (with_defaults M) g) ms) by (subst u; rewrite CP; reflexivity).
  assert (CO : ctx_ok c).
  { split; [reflexivity|]. split; [exact LF|]. exists n, (leaf_ctx U). split; [reflexivity|]. split; [reflexivity|].
    subst c. unfold unit_ctx. cbn [c_funs]. rewrite UF. reflexivity. }
  destruct (unpack_exec n c g msg bits d dl tick hash hook pf m (so_gen _ _ SO) MO CO IC SF) as (m0 & m1 & E & ON & V0 & F1 & F0 & MP).
  { destruct AR as [A1 A2]. split; [exact A1|]. split; [exact DL|exact BY]. }
  { apply AR. }
  { exact HS. }
  { intros S sg I X. apply (from_phys _ _ _ _ _ _ (g_dlc msg)); auto. now apply MO. }
  { intros S. destruct (MN S) as [H1 H2 H3 H4 H5]. split; [exact ED|]. split; [exact DR8|]. split; [exact H1|]. split; [exact H2|]. split; [exact H3|exact H4]. }
  rewrite MU in *.
  exists (if defined (n_usemon g) U then hook m1 else m1). split.
  { change (unpack_name drv msg) with ("Unpack_" ++ g_name msg ++ "_" ++ drv)%string. rewrite <- NO.
    change ("Unpack_" ++ g_name msg ++ "_" ++ n_orig g)%string with (un_name g msg). rewrite UF.
    rewrite (unpack_found (S n) c (with_defaults M) g coreh ms msg m SO IMS NE ND (EO _ IMS)).
    rewrite <- UM.
    rewrite (exec_list_step _ _ _ _ m _ (void_exec n c m dl ED (LF "dlc_"%string ltac:(cbn; tauto)))). exact E. }
  set (m' := if defined (n_usemon g) U then hook m1 else m1) in *.
  (* the last memory equals the one after the signals, but for monitor and expected value *)
  assert (EQ : forall q, (defined (n_usemon g) U = true ->
       ~ is_monitor q /\ forall sg, counter_on U g msg = Some sg -> q <> expected sg) -> m_scal m' q = m_scal m0 q).
  { intros q Q. subst m'. destruct (defined (n_usemon g) U) eqn:UMN.
    - destruct (Q eq_refl) as [Q1 Q2]. destruct (MN eq_refl) as [_ _ _ _ HO]. rewrite (proj2 (HO m1)) by auto.
      destruct (mp_only _ _ _ _ _ _ _ _ _ _ MP) as (_ & _ & O). apply O. intros [X|(sg & X & Y)]; [auto|].
      eapply Q2; eauto.
    - now subst m1. }
  assert (AQ : m_arr m' = m_arr m).
  { subst m'. destruct ON as (A & _ & _). destruct (defined (n_usemon g) U) eqn:UMN; [|now subst m1].
    destruct (MN eq_refl) as [_ _ _ _ HO]. rewrite (proj1 (HO m1)).
    destruct (mp_only _ _ _ _ _ _ _ _ _ _ MP) as (B & _ & _). congruence. }
  assert (CR : forall sg, counter_on U g msg = Some sg -> roll_sig msg = Some sg).
  { intros sg X. unfold counter_on in X. now destruct (defined (n_useroll g) U). }
  assert (NS : forall q, sigs_paths (g_sigs msg) q -> m_scal m' q = m_scal m0 q).
  { intros q Q. apply EQ. intros _. split; [now apply (not_mon msg)|]. intros sg X ->.
    apply (expt_not_sig msg sg MO); auto. }
  assert (VS : forall sg, In sg (g_sigs msg) ->
     m_scal m' (member (s_name sg)) = Some (field_ty bits sg, stored (field_ty bits sg) (unp sg d))).
  { intros sg I. rewrite NS by now apply sig_in_paths. apply V0; auto. }
  assert (LN : forall sg, In sg (g_sigs msg) -> 1 <= s_len sg).
  { intros sg I. pose proof (ok_len _ _ (mo_sigs _ MO sg I)). lia. }
  assert (HE : defined (n_useroll g) U = true -> forall sg, roll_sig msg = Some sg -> has_type m' (expected sg) (field_ty bits sg)).
  { intros UR sg R. pose proof (hs_expt _ _ _ _ _ HS UR sg R) as H0.
    assert (H1 : has_type m0 (expected sg) (field_ty bits sg)).
    { eapply has_type_eq; [|exact H0]. destruct ON as (_ & _ & O). apply O. now apply expt_not_sig. }
    subst m'. destruct (defined (n_usemon g) U) eqn:UMN; [|now subst m1].
    destruct (MN eq_refl) as [_ _ _ _ HO].
    eapply has_type_eq; [apply (proj2 (HO m1)); now apply (expt_not_mon msg)|].
    pose proof (mp_roll _ _ _ _ _ _ _ _ _ _ MP) as RP. unfold roll_on in RP.
    rewrite UR, R in RP. destruct H1 as (v & X & Y).
    pose proof (mo_sigs _ MO sg (roll_in _ _ R)) as OK.
    destruct (obj_field bits sg v (ok_type _ _ OK) (LN sg (roll_in _ _ R)) Y) as (z & -> & _).
    destruct (RP z X) as [_ RQ]. eexists. split; [exact RQ|]. unfold obj.
    rewrite to_obj_fval. apply (to_obj_twice _ (VI I32 ((unp sg d + 1) mod 2 ^ s_len sg))).
    - eapply field_lty; eauto.
    - apply to_obj_fval. }
  assert (CT : forall sg, counter_on U g msg = Some sg -> defined (n_useroll g) U = true).
  { intros sg X. unfold counter_on in X. now destruct (defined (n_useroll g) U). }
  split; [|split].
  - constructor.
    + intros sg I X. unfold field_is, int_at. rewrite VS, stored_elt by auto. now rewrite unp_value by auto.
    + intros sg I. exists (unp sg d). split; [unfold field_is, int_at; now rewrite VS, stored_elt by auto|].
      split; [now apply unp_carries; apply LN|]. intros k K. now apply unp_testbit.
    + intros sg I S X. rewrite NS by (now apply phys_in_paths). destruct (defined (n_usesigfloat g) U) eqn:UF'.
      * rewrite <- unp_value by auto. now apply F1.
      * now apply F0.
    + constructor.
      * intros sg I. eexists. split; [now apply VS|].
        pose proof (mo_sigs _ MO sg I) as OK. rewrite stored_elt.
        rewrite (store_carries bits sg _ (unp sg d)); [now rewrite stored_elt|apply OK|auto|]. apply unp_carries; auto.
      * intros UF' sg I S. eexists. split; [rewrite NS by (now apply phys_in_paths); now apply F1|].
           destruct (from_phys _ _ _ _ _ _ (g_dlc msg) (mo_sigs _ MO sg I) (PF UF' sg I S) m0 (unp sg d)) as (w & _ & T).
           ++ apply unp_carries; auto.
           ++ now apply V0.
           ++ destruct ON as (A & _). rewrite A. apply AR. discriminate.
           ++ eapply to_obj_twice; [apply phys_lty|exact T].
      * exact HE.
    + exact AQ.
  - intros q Q1 Q2. rewrite EQ by exact Q2. destruct ON as (_ & _ & O). apply O. intros X.
    destruct (sigs_paths_in _ _ X) as (sg & I & [->|[S ->]]); destruct (Q1 sg I) as [A B]; [now apply A|now apply B].
  - intros UMN. exists m1. subst m'. rewrite UMN in *. destruct (MN eq_refl) as [HM TK HH HC HO].
    split; [reflexivity|]. split; [|intros sg X; apply HO; apply (expt_not_mon msg); auto].
    assert (KM : forall f, m_scal m0 (mon_path f) = m_scal m (mon_path f)).
    { intros f. destruct ON as (_ & _ & O). apply O. intros X. eapply not_mon; eauto. now exists f. }
    constructor.
    + apply int_flag. apply MP.
    + unfold int_at. now rewrite (mp_cycle _ _ _ _ _ _ _ _ _ _ MP).
    + intros k K. destruct (hm_cnt _ HM) as (v & X & Y). unfold int_at in K. rewrite X in K.
      destruct (u32_obj v Y) as (k' & -> & KR). injection K as ->.
      unfold int_at. rewrite (mp_cnt _ _ _ _ _ _ _ _ _ _ MP k); [reflexivity|]. rewrite KM. exact X.
    + pose proof (mp_roll _ _ _ _ _ _ _ _ _ _ MP) as RP. change (counter_on U g msg) with (roll_on U g msg).
      destruct (roll_on U g msg) as [sg|] eqn:R; [|unfold int_at; now rewrite RP, KM].
      pose proof (CT sg R) as UR. specialize (CR sg R). pose proof (roll_in _ _ CR) as I.
      intros X e EE. rewrite <- unp_value by auto.
      destruct (hs_expt _ _ _ _ _ HS UR sg CR) as (v & Y1 & Y2). unfold int_at in EE. unfold expected in EE. rewrite Y1 in EE.
      destruct (obj_field bits sg v (ok_type _ _ (mo_sigs _ MO sg I)) (LN sg I) Y2) as (z & -> & _).
      rewrite stored_elt in EE. injection EE as ->. destruct (RP e) as [P1 P2].
      { destruct ON as (_ & _ & O). rewrite O; [exact Y1|]. now apply expt_not_sig. }
      split; [now apply int_flag|exact P2].
    + pose proof (mp_csm _ _ _ _ _ _ _ _ _ _ MP) as RP. change (checksum_on U g msg) with (csm_on U g msg).
      destruct (csm_on U g msg) as [sg|] eqn:R; [|unfold int_at; now rewrite RP, KM].
      intros X. rewrite <- unp_value; auto; [now apply int_flag|]. apply LN. apply csm_in.
      unfold csm_on in R. now destruct (defined (n_usecsm g) U).
    + assert (CL : forall p t v, m_scal m1 p = Some (t, v) -> to_obj t v = Ok v -> has_type m1 p t) by (intros p t v A B; exists v; auto).
      assert (FO : forall b, to_obj (LBits U32 1) (snd (flag_obj b)) = Ok (snd (flag_obj b))) by (intros []; reflexivity).
      destruct HM as [A1 A2 A3 A4 A5]. constructor.
      * destruct A1 as (v & X & Y). destruct (u32_obj v Y) as (k & -> & KR).
        eapply CL; [apply (mp_cnt _ _ _ _ _ _ _ _ _ _ MP k); rewrite KM; exact X|].
        cbn [to_obj to_int bind]. rewrite conv_small; [reflexivity|reflexivity|]. apply Z.mod_pos_bound. reflexivity.
      * eapply CL; [apply MP|]. cbn [to_obj to_int bind]. destruct TK as (_ & R & _). now rewrite conv_small.
      * pose proof (mp_roll _ _ _ _ _ _ _ _ _ _ MP) as RP. destruct (roll_on U g msg) as [sg|] eqn:R.
        -- pose proof (CT sg R) as UR. specialize (CR sg R). pose proof (roll_in _ _ CR) as I. destruct (hs_expt _ _ _ _ _ HS UR sg CR) as (v & Y1 & Y2).
           destruct (obj_field bits sg v (ok_type _ _ (mo_sigs _ MO sg I)) (LN sg I) Y2) as (z & -> & _).
           destruct (RP z) as [P1 _].
           { destruct ON as (_ & _ & O). rewrite O; [exact Y1|]. now apply expt_not_sig. }
           eapply CL; [exact P1|apply FO].
        -- eapply has_type_eq; [|exact A3]. now rewrite RP, KM.
      * pose proof (mp_csm _ _ _ _ _ _ _ _ _ _ MP) as RP. destruct (csm_on U g msg) as [sg|] eqn:R.
        -- eapply CL; [exact RP|apply FO].
        -- eapply has_type_eq; [|exact A4]. now rewrite RP, KM.
      * eapply CL; [apply MP|apply FO].
Qed.
