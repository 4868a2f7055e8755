(** Decision procedures for the conditions used in theorems, for concrete cases. *)

From Coq Require Import ZArith NArith List String Ascii Bool Permutation Lia ZifyBool.
From Verif Require Import Base Dbl CSyntax CSem CRun Types Formatter Settings MainGen Scanner App LexLemmas PPProof CodecSpec MsgSpec DriverSpec HeaderSpec CodecEnv.
Import ListNotations.
Open Scope Z_scope.

Lemma insert_perm : forall A (key : A -> Z) a l, Permutation (insert_by key a l) (a :: l).
Proof.
  intros A key a l. induction l as [|b l IH]; cbn [insert_by]; [reflexivity|]. destruct (_ <? _); [reflexivity|].
  rewrite IH. apply perm_swap.
Qed.
Lemma isort_sorts : sorts isort.
Proof.
  intros A key l. unfold isort.
  assert (H : forall acc, Permutation (fold_left (fun acc a => insert_by key a acc) l acc) (l ++ acc)).
  { induction l as [|x l IH]; intros acc; cbn [fold_left List.app]; [reflexivity|]. rewrite IH, insert_perm.
    symmetry. apply Permutation_middle. }
  rewrite H. now rewrite List.app_nil_r.
Qed.

(** ** Messages *)

Fixpoint nodupb (l : list string) : bool :=
  match l with [] => true | x :: r => negb (smem x r) && nodupb r end.
Lemma smem_in : forall x l, smem x l = true <-> In x l.
Proof.
  intros x l. unfold smem. rewrite existsb_exists. split.
  - intros (y & I & E). apply String.eqb_eq in E. now subst y.
  - intros I. exists x. split; [exact I|]. apply String.eqb_refl.
Qed.
Lemma nodupb_ok : forall l, nodupb l = true -> NoDup l.
Proof.
  induction l as [|x l IH]; cbn [nodupb]; intros H; constructor; apply andb_true_iff in H; destruct H as [A B]; auto.
  intros I. apply smem_in in I. rewrite I in A. discriminate.
Qed.

Definition in_frameb (o : layout) (start len dlc : Z) : bool :=
  forallb (fun k => let p := sig_pos o start len (Z.of_nat k) in (0 <=? p) && (p <? 8 * dlc)) (seq 0 (Z.to_nat len)).
Lemma in_frameb_ok : forall o start len dlc, in_frameb o start len dlc = true -> in_frame o start len dlc.
Proof.
  intros o start len dlc H k K. unfold in_frameb in H. rewrite forallb_forall in H.
  specialize (H (Z.to_nat k)). rewrite Z2Nat.id in H by lia. specialize (H ltac:(apply in_seq; lia)). cbn zeta in H. lia.
Qed.

Definition sig_okb (dlc : Z) (sg : signal) : bool :=
  is_ident (s_name sg) && (String.length (s_name sg) <=? 1000)%nat && (1 <=? s_len sg) && (s_len sg <=? 64) &&
  (0 <=? s_start sg) && in_frameb (s_order sg) (s_start sg) (s_len sg) dlc &&
  Bool.eqb (is_signed (s_typero sg)) (s_signed sg) && (s_len sg <=? width (s_typero sg)) &&
  (s_simple sg || (is_ident (s_namefloat sg) && (String.length (s_namefloat sg) <=? 1010)%nat)).
Ltac splitb H := repeat match type of H with (_ && _)%bool = true => let H' := fresh H in apply andb_true_iff in H; destruct H as [H H'] end.
Ltac natb := repeat match goal with H : (_ <=? _)%nat = true |- _ => apply Nat.leb_le in H end.
Lemma sig_okb_ok : forall dlc sg, sig_okb dlc sg = true -> sig_ok dlc sg.
Proof.
  intros dlc sg H. unfold sig_okb in H. splitb H. natb.
  constructor; try assumption; try lia.
  - now apply in_frameb_ok.
  - split; [now apply Bool.eqb_prop|lia].
Qed.

Definition msg_okb (m : message) : bool :=
  (1 <=? g_dlc m) && (g_dlc m <=? 64) && (0 <=? g_id m) && (g_id m <? 2 ^ 29) && (0 <=? g_ext m) && (g_ext m <=? 1) &&
  is_ident (g_name m) && (String.length (g_name m) <=? 1000)%nat && forallb (sig_okb (g_dlc m)) (g_sigs m) &&
  nodupb (member_names m) &&
  match roll_sig m with Some sg => (s_len sg <? 31) && negb (smem (s_name sg ++ "_expt")%string (member_names m)) | None => true end &&
  match csm_sig m with
  | Some sg => is_ident (g_csmmethod m) && negb (is_typename (g_csmmethod m)) && (String.length (g_csmmethod m) <=? 1000)%nat &&
               (0 <=? g_csmop m) && (g_csmop m <? 2 ^ 31)
  | None => true
  end.
Lemma msg_okb_ok : forall m, msg_okb m = true -> msg_ok m.
Proof.
  intros m H. unfold msg_okb in H. splitb H. natb. constructor; try assumption; try lia.
  - rewrite forallb_forall in H3. intros sg I. apply sig_okb_ok. auto.
  - now apply nodupb_ok.
  - intros sg E. rewrite E in H1. splitb H1. split; [lia|]. intros I. apply smem_in in I. rewrite I in H11. discriminate.
  - intros sg E. rewrite E in H0. splitb H0. natb. repeat split; auto; lia.
Qed.

Definition csm_first8b (m : message) : bool :=
  match csm_sig m with Some sg => in_frameb (s_order sg) (s_start sg) (s_len sg) 8 | None => true end.
Lemma csm_first8b_ok : forall m, csm_first8b m = true -> csm_first8 m.
Proof. intros m H sg E. unfold csm_first8b in H. rewrite E in H. now apply in_frameb_ok. Qed.

Definition short_linesb (m : message) : bool := names_size (g_sigs m) <=? 9600.
Lemma names_size_filter : forall f l, names_size (filter f l) <= names_size l /\ 0 <= names_size l.
Proof. induction l as [|x l IH]; cbn [filter names_size]; [lia|]. destruct (f x); cbn [names_size]; lia. Qed.
Lemma short_linesb_ok : forall m, short_linesb m = true -> short_lines m.
Proof. intros m H i. unfold short_linesb in H. destruct (names_size_filter (fun sg => in_byte sg i) (g_sigs m)). lia. Qed.

(** no two signals share a bit *)
Definition posns (sg : signal) : list Z :=
  map (fun k => sig_pos (s_order sg) (s_start sg) (s_len sg) (Z.of_nat k)) (seq 0 (Z.to_nat (s_len sg))).
Lemma posns_spec : forall sg p, sig_covers sg p -> In p (posns sg).
Proof.
  intros sg p (k & K & E). unfold posns. apply in_map_iff. exists (Z.to_nat k). rewrite Z2Nat.id by lia.
  split; [exact E|]. apply in_seq. lia.
Qed.
Definition no_overlapb (m : message) : bool :=
  forallb (fun a => forallb (fun b => String.eqb (s_name a) (s_name b) ||
     negb (existsb (fun p => existsb (Z.eqb p) (posns b)) (posns a))) (g_sigs m)) (g_sigs m).
Lemma no_overlapb_ok : forall m, no_overlapb m = true -> no_overlap m.
Proof.
  intros m H a b p A B CA CB. unfold no_overlapb in H. rewrite forallb_forall in H. specialize (H a A).
  rewrite forallb_forall in H. specialize (H b B). apply orb_true_iff in H. destruct H as [H|H]; [now apply String.eqb_eq|].
  apply negb_true_iff in H. apply posns_spec in CA. apply posns_spec in CB.
  assert (X : existsb (fun p => existsb (Z.eqb p) (posns b)) (posns a) = true).
  { apply existsb_exists. exists p. split; [exact CA|]. apply existsb_exists. exists p. split; [exact CB|]. apply Z.eqb_refl. }
  congruence.
Qed.

(** ** A program around the driver made from a DBC text *)

Definition no_db : dbclist := {| d_msgs := []; d_maxdlc := 0; d_verhi := 0; d_verlow := 0 |}.
Definition db_of (text : string) : dbclist := match scan isort text with Ok d => d | _ => no_db end.
Definition settings_of (drv : string) (d : dbclist) : settings :=
  configure drv "out" (common_info None) (driver_info "sample.dbc") (d_verhi d) (d_verlow d) false false false.
Definition files_of (drv : string) (d : dbclist) : list (string * string) :=
  match generate_main isort d (settings_of drv d) with Ok l => l | _ => [] end.

Definition the_env (fuel : nat) (drv : string) (d : dbclist) (h src : string) (conf : list (string * macro))
    (user : string -> option (list arg -> res cval)) (calls : string -> option (list expr -> mem -> res (mem * cval))) : env :=
  {| e_fuel := fuel; e_drv := drv; e_g := st_g (settings_of drv d); e_db := d; e_h := h; e_src := src;
     e_conf := conf; e_user := user; e_calls := calls |}.

Definition header_okb (d : dbclist) : bool :=
  forallb (fun m => forallb (fun sg =>
    no_nl (s_unit sg) && (String.length (s_unit sg) <=? 1000)%nat &&
    (String.length (prt_double (s_factor sg) 9) <=? 400)%nat && (String.length (prt_double (s_offset sg) 9) <=? 400)%nat &&
    forallb (fun tv => all_chars is_idchar (fst tv) && (String.length (fst tv) <=? 1000)%nat) (s_valdefs sg)) (g_sigs m)) (d_msgs d)
  && (0 <=? d_maxdlc d) && (d_maxdlc d <? 256).
Lemma header_okb_ok : forall d, header_okb d = true -> header_ok d.
Proof.
  intros d H. unfold header_okb in H. splitb H. constructor; [|lia].
  intros m sg I J. rewrite forallb_forall in H. specialize (H m I). rewrite forallb_forall in H. specialize (H sg J).
  splitb H. natb. constructor; auto. intros t v K. rewrite forallb_forall in H2. specialize (H2 (t, v) K). cbn [fst] in H2.
  splitb H2. natb. auto.
Qed.

Definition starts_with_files (s : settings) (h src : string) (l : list (string * string)) : bool :=
  match l with
  | (p1, t1) :: (p2, t2) :: _ => String.eqb p1 (f_coreh_path (st_f s)) && String.eqb t1 h &&
                                 String.eqb p2 (f_corec_path (st_f s)) && String.eqb t2 src
  | _ => false
  end.
Definition driverb (drv : string) (d : dbclist) (h src : string) : bool :=
  (0 <=? d_verhi d) && (d_verhi d <? 2 ^ 32) && (0 <=? d_verlow d) && (d_verlow d <? 2 ^ 32) &&
  is_ident drv && (String.length drv <=? 900)%nat &&
  forallb (fun m => msg_okb m && csm_first8b m && short_linesb m) (d_msgs d) && nodupb (map g_name (d_msgs d)) &&
  starts_with_files (settings_of drv d) h src (files_of drv d).
Lemma driverb_ok : forall drv d h src, driverb drv d h src = true -> driver drv (st_g (settings_of drv d)) d h src.
Proof.
  intros drv d h src H. unfold driverb in H. splitb H. natb. unfold files_of in H0.
  destruct (generate_main isort d (settings_of drv d)) as [l|e|e] eqn:G; try discriminate.
  unfold starts_with_files in H0. destruct l as [|[p1 t1] [|[p2 t2] l]]; try discriminate. splitb H0.
  repeat match goal with X : (_ =? _)%string = true |- _ => apply String.eqb_eq in X end. subst p1 t1 p2 t2.
  constructor; auto.
  - exists isort, "out"%string, None, "sample.dbc"%string, (d_verhi d), (d_verlow d), false, false, false, l. cbv zeta.
    split; [apply isort_sorts|]. split; [exact Logic.I|]. split; [reflexivity|]. split; [lia|]. split; [lia|]. split; [reflexivity|].
    exact G.
  - intros m I. rewrite forallb_forall in H2. specialize (H2 m I). splitb H2.
    split; [now apply msg_okb_ok|]. split; [now apply csm_first8b_ok|now apply short_linesb_ok].
  - now apply nodupb_ok.
Qed.

Definition onceb (ds : list string) (x : string) : bool := (count_occ string_dec ds x =? 1)%nat.
Definition programb (drv : string) (d : dbclist) (h src : string) (conf : list (string * macro)) : bool :=
  driverb drv d h src && header_okb d &&
  let g := st_g (settings_of drv d) in
  let M := u_macros (compile (after_header conf h) src) in
  let ds := defines (lines h) in
  forallb (fun x => match lookup x M with None => true | Some _ => false end) ["m"; "val"; "bits"; "i"; "dlc_"; "__ext_sig__"]%string &&
  forallb (fun x => onceb ds (n_DRV g ++ x)) ["_VALIDATE_DLC"; "_MAX_DLC_VALUE"; "_INITIAL_BYTE_VALUE"]%string &&
  forallb (fun m => forallb (fun x => onceb ds (g_name m ++ x)) ["_DLC"; "_CANID"; "_IDE"]%string) (d_msgs d).
Lemma programb_ok : forall fuel drv d h src conf user calls, programb drv d h src conf = true ->
  program (the_env fuel drv d h src conf user calls).
Proof.
  intros fuel drv d h src conf user calls H. unfold programb in H. cbv zeta in H. splitb H.
  apply andb_true_iff in H0. destruct H0 as [H0 H3]. apply andb_true_iff in H0. destruct H0 as [H0 H2].
  constructor; cbn [e_drv e_g e_db e_h e_src e_conf the_env].
  - now apply driverb_ok.
  - now apply header_okb_ok.
  - intros x I. rewrite forallb_forall in H0. specialize (H0 x I).
    unfold e_macros, e_unit. cbn [e_conf e_h e_src]. destruct (lookup x _); [discriminate|reflexivity].
  - intros x I. rewrite forallb_forall in H2. specialize (H2 x I). now apply Nat.eqb_eq.
  - intros msg x I J. rewrite forallb_forall in H3. specialize (H3 msg I). rewrite forallb_forall in H3. now apply Nat.eqb_eq, H3.
Qed.

(** ** Memory *)

(** scalars by access path, one array *)
Definition mk_mem (scal : list (string * (lty * cval))) (p : string) (d : list Z) : mem :=
  {| m_scal := fun q => lookup q scal; m_arr := fun q => if String.eqb q p then Some d else None |}.

Definition payloadb (msg : message) (d : list Z) : bool :=
  forallb (fun x => (0 <=? x) && (x <? 256)) d && (g_dlc msg <=? Z.of_nat (List.length d)).
Lemma payloadb_ok : forall scal p msg d, payloadb msg d = true -> payload (mk_mem scal p d) p msg d.
Proof.
  intros scal p msg d H. unfold payloadb in H. splitb H. split; [split|split]; cbn [mk_mem m_arr].
  - now rewrite String.eqb_refl.
  - intros q N. destruct (String.eqb_spec q p); [contradiction|reflexivity].
  - intros x I. rewrite forallb_forall in H. specialize (H x I). unfold is_byte. lia.
  - lia.
Qed.

Definition cty_eqb (a b : cty) : bool :=
  match a, b with
  | I8, I8 | U8, U8 | I16, I16 | U16, U16 | I32, I32 | U32, U32 | I64, I64 | U64, U64 => true
  | _, _ => false
  end.
Lemma cty_eqb_ok : forall a b, cty_eqb a b = true -> a = b.
Proof. intros [] []; cbn; congruence. Qed.
Definition lty_eqb (a b : lty) : bool :=
  match a, b with
  | LInt t, LInt u => cty_eqb t u
  | LBits t w, LBits u v => cty_eqb t u && (w =? v)
  | LDbl, LDbl | LVoid, LVoid => true
  | _, _ => false
  end.
Lemma lty_eqb_ok : forall a b, lty_eqb a b = true -> a = b.
Proof.
  intros [t|t w| |] [u|u v| |]; cbn [lty_eqb]; intros H; try discriminate; auto; splitb H; try (apply cty_eqb_ok in H; subst; auto).
  f_equal. lia.
Qed.
Definition cval_eqb (a b : cval) : bool :=
  match a, b with
  | VI t z, VI u w => cty_eqb t u && (z =? w)
  | VD (SpecFloat.S754_zero s), VD (SpecFloat.S754_zero s') => Bool.eqb s s'
  | VD (SpecFloat.S754_finite s m k), VD (SpecFloat.S754_finite s' m' k') => Bool.eqb s s' && Pos.eqb m m' && (k =? k')
  | _, _ => false
  end.
Lemma cval_eqb_ok : forall a b, cval_eqb a b = true -> a = b.
Proof.
  intros [t z|x] [u w|y]; cbn [cval_eqb]; intros H; try discriminate.
  - splitb H. apply cty_eqb_ok in H. subst. f_equal. lia.
  - destruct x; discriminate.
  - destruct x, y; try discriminate.
    + apply Bool.eqb_prop in H. now subst.
    + splitb H. apply Bool.eqb_prop in H. apply Pos.eqb_eq in H1. subst. do 2 f_equal. lia.
Qed.

Definition has_typeb (m : mem) (p : string) (t : lty) : bool :=
  match m_scal m p with
  | Some (t', v) => lty_eqb t' t && match to_obj t v with Ok w => cval_eqb w v | _ => false end
  | None => false
  end.
Lemma has_typeb_ok : forall m p t, has_typeb m p t = true -> has_type m p t.
Proof.
  intros m p t H. unfold has_typeb in H. destruct (m_scal m p) as [[t' v]|] eqn:E; [|discriminate]. splitb H.
  apply lty_eqb_ok in H. subst t'. exists v. split; [exact E|]. destruct (to_obj t v) as [w|x|x]; try discriminate.
  apply cval_eqb_ok in H0. now subst.
Qed.
Definition has_structb (bits : bool) (g : message) (m : mem) : bool :=
  forallb (fun sg => has_typeb m (member (s_name sg)) (field_ty bits sg) &&
                     (s_simple sg || has_typeb m (member (s_namefloat sg)) (phys_ty sg))) (g_sigs g) &&
  match roll_sig g with Some sg => has_typeb m (member (s_name sg ++ "_expt")) (field_ty bits sg) | None => true end.
Lemma has_structb_ok : forall bits g m, has_structb bits g m = true -> forall floats rolls, has_struct floats rolls bits g m.
Proof.
  intros bits g m H floats rolls. unfold has_structb in H. splitb H. rewrite forallb_forall in H. constructor.
  - intros sg I. specialize (H sg I). splitb H. now apply has_typeb_ok.
  - intros _ sg I E. specialize (H sg I). splitb H. rewrite E in H1. now apply has_typeb_ok.
  - intros _ sg E. rewrite E in H0. now apply has_typeb_ok.
Qed.

(** a struct of the message: members of signals hold the given numbers, everything else 0 *)
Definition struct_of (bits : bool) (g : message) (vals : list (string * Z)) : list (string * (lty * cval)) :=
  let v x := match lookup x vals with Some z => z | None => 0 end in
  (map (fun sg => (member (s_name sg), (field_ty bits sg, obj (field_ty bits sg) (v (s_name sg))))) (g_sigs g) ++
   map (fun sg => (member (s_namefloat sg), (phys_ty sg, obj (phys_ty sg) (v (s_namefloat sg))))) (filter (fun sg => negb (s_simple sg)) (g_sigs g)) ++
   match roll_sig g with
   | Some sg => [(member (s_name sg ++ "_expt"), (field_ty bits sg, obj (field_ty bits sg) (v (s_name sg ++ "_expt")%string)))]
   | None => []
   end)%list.
