(** The body of an emitted Unpack function: from text to its effect on the struct. *)

From Coq Require Import ZArith NArith List String Ascii Bool Lia ZifyBool Permutation.
From Verif Require Import Base Dbl CSyntax CSem CRun Types Formatter SigPrinter Writer Settings
  MainGen CodecSpec MsgSpec LexLemmas BitLemmas CSemLemmas Chunks UnpackProof PPProof BodyLemmas.
Import ListNotations.
Open Scope Z_scope.

(** ** Conditions on the names of the configuration *)

Record gen_ok (g : gendesc) : Prop := {
  go_sigfloat : is_ident (n_usesigfloat g) = true;
  go_mon : is_ident (n_usemon g) = true;
  go_roll : is_ident (n_useroll g) = true;
  go_csm : is_ident (n_usecsm g) = true;
  go_DRV : is_ident (n_DRV g) = true;
  go_drv : all_chars is_idchar (n_drv g) = true;
  go_len : (String.length (n_usesigfloat g) <= 1100)%nat /\ (String.length (n_usemon g) <= 1100)%nat
           /\ (String.length (n_useroll g) <= 1100)%nat /\ (String.length (n_usecsm g) <= 1100)%nat
           /\ (String.length (n_DRV g) <= 1000)%nat /\ (String.length (n_drv g) <= 1000)%nat
}.

(** ** Texts are short enough and free of line feeds *)

Lemma no_nl_num : forall z, no_nl (num z) = true.
Proof. intros. apply no_nl_ident. apply dec_idchars. Qed.
Lemma no_nl_msk : forall w, no_nl (msk w) = true.
Proof.
  intros. unfold msk. destruct (Z.to_nat w) as [|[|[|[|[|[|[|[|[|n]]]]]]]]]; try reflexivity.
  destruct n; reflexivity.
Qed.
Lemma no_nl_ident' : forall s, is_ident s = true -> no_nl s = true.
Proof. intros. apply no_nl_ident. now apply ident_chars. Qed.
Lemma no_nl_type : forall t, no_nl (print_type t) = true.
Proof. destruct t; reflexivity. Qed.

Ltac nonl :=
  rewrite ?no_nl_app;
  repeat match goal with
         | |- context [no_nl (String ?a ?b)] =>
             let v := eval vm_compute in (no_nl (String a b)) in change (no_nl (String a b)) with v
         | |- context [no_nl EmptyString] => change (no_nl EmptyString) with true
         end;
  rewrite ?no_nl_num, ?no_nl_msk, ?no_nl_type; cbn [andb].

Lemma no_nl_utext : forall c, no_nl (utext c) = true.
Proof.
  intros c. unfold utext. destruct (k_pos c =? 0); [destruct (k_lo c =? 0)|destruct (k_pos c >? 31)];
    nonl; reflexivity.
Qed.
Lemma no_nl_more : forall l, no_nl (more l) = true.
Proof. induction l; auto. cbn [more]. rewrite !no_nl_app, no_nl_utext, IHl. reflexivity. Qed.
Lemma no_nl_ujoin : forall l, no_nl (ujoin l) = true.
Proof. intros [|c l]; auto. cbn [ujoin]. now rewrite no_nl_app, no_nl_utext, no_nl_more. Qed.

Lemma utext_len : forall c, good c -> (String.length (utext c) <= 50)%nat.
Proof.
  intros c (B & Lo & W & LW & P & PW & PL). unfold utext.
  destruct (k_pos c =? 0); [destruct (k_lo c =? 0)|destruct (k_pos c >? 31)]; len_tac.
Qed.
Lemma more_len : forall l, (forall c, In c l -> good c) ->
  (String.length (more l) <= 60 * List.length l)%nat.
Proof.
  induction l as [|c l IH]; intros G; [reflexivity|]. cbn [more List.length].
  rewrite !app_len. specialize (IH (fun d D => G d (or_intror D))).
  pose proof (utext_len c (G c (or_introl eq_refl))). cbn [String.length]. lia.
Qed.
Lemma ujoin_len : forall l, (forall c, In c l -> good c) ->
  (String.length (ujoin l) <= 60 * List.length l)%nat.
Proof.
  intros [|c l] G; [simpl; lia|]. cbn [ujoin List.length]. rewrite app_len.
  pose proof (utext_len c (G c (or_introl eq_refl))).
  pose proof (more_len l (fun d D => G d (or_intror D))). lia.
Qed.
Lemma tail_chunks_len : forall q o bn r, (List.length (tail_chunks q o bn r) <= q + 1)%nat.
Proof.
  induction q; intros; cbn [tail_chunks].
  - destruct (r =? 0); simpl; lia.
  - cbn [List.length]. specialize (IHq o (next o bn) r). lia.
Qed.
Lemma chunks_len : forall o start len, 0 <= start -> 1 <= len <= 64 ->
  (List.length (chunks o start len) <= 9)%nat.
Proof.
  intros o start len S L. unfold chunks, chunks_at.
  set (bbc := startb o start len mod 8 + 1).
  assert (1 <= bbc <= 8) by (subst bbc; pose proof (Z.mod_pos_bound (startb o start len) 8); lia).
  destruct (Z.leb_spec len bbc); [simpl; lia|]. cbn [List.length].
  pose proof (tail_chunks_len (Z.to_nat ((len - bbc) / 8)) o (startb o start len / 8)
    ((len - bbc) mod 8)).
  assert ((len - bbc) / 8 < 8) by (apply Z.div_lt_upper_bound; lia).
  assert (0 <= (len - bbc) / 8) by (apply Z.div_pos; lia). lia.
Qed.

Definition sig_chunks (sg : signal) : list chunk := chunks (s_order sg) (s_start sg) (s_len sg).
Definition uj (sg : signal) : string := ujoin (sig_chunks sg).

Lemma sig_chunks_good : forall dlc sg, sig_ok dlc sg -> dlc <= 64 ->
  forall c, In c (sig_chunks sg) -> good c /\ 0 <= k_byte c < dlc.
Proof.
  intros dlc sg [] D c I. eapply chunks_good; eauto.
Qed.

Lemma sig_chunks_nonempty : forall sg, sig_chunks sg <> [].
Proof.
  intros. unfold sig_chunks, chunks, chunks_at. destruct (_ <=? _); discriminate.
Qed.

Lemma uj_len : forall dlc sg, sig_ok dlc sg -> dlc <= 64 -> (String.length (uj sg) <= 540)%nat.
Proof.
  intros dlc sg OK D. unfold uj.
  pose proof (ujoin_len (sig_chunks sg) (fun c I => proj1 (sig_chunks_good dlc sg OK D c I))).
  pose proof (chunks_len (s_order sg) (s_start sg) (s_len sg) (ok_start _ _ OK) (ok_len _ _ OK)).
  unfold sig_chunks in *. lia.
Qed.

(** ** The expressions of all signals *)

Definition sane_ok : forall dlc sg, sig_ok dlc sg -> sane sg.
Proof. intros dlc sg []. repeat split; auto; lia. Qed.

Definition put_sigs (sgs : list signal) (tb : list string) : list string :=
  fold_left (fun tb sg => put_chunks (s_name sg) tb (sig_chunks sg)) sgs tb.

Lemma build_exprs_ok : forall sgs tb, (List.length tb <= 64)%nat ->
  (forall sg, In sg sgs -> sig_ok (Z.of_nat (List.length tb)) sg) ->
  build_exprs sgs tb = Ok (map uj sgs, put_sigs sgs tb).
Proof.
  induction sgs as [|sg sgs IH]; intros tb D OK; [reflexivity|].
  cbn [build_exprs map]. 
  pose proof (OK sg (or_introl eq_refl)) as O.
  rewrite print_signal_expr_chunks; [|eapply sane_ok; eauto|auto|apply O].
  cbn [bind]. fold (sig_chunks sg).
  assert (E : List.length (put_chunks (s_name sg) tb (sig_chunks sg)) = List.length tb).
  { apply put_chunks_length. intros c I.
    apply (sig_chunks_good (Z.of_nat (List.length tb)) sg O ltac:(lia) c I). }
  rewrite IH.
  - cbn [bind]. reflexivity.
  - lia.
  - intros s I. rewrite E. apply OK. now right.
Qed.

(** ** Statements of one signal *)

Ltac appnorm := repeat (rewrite <- List.app_assoc || cbn [List.app]).

Definition ty_toks (t : cty) : list tok := [TP PLpar; TId (print_type t); TP PRpar].

Definition sig_rhs (sg : signal) : expr :=
  if s_signed sg then
    EUn (UCast (print_type (s_typero sg)))
      (ECall "__ext_sig__" [uexpr_all (sig_chunks sg); EInt I32 (s_len sg)])
  else EUn (UCast (print_type (s_typero sg))) (uexpr_all (sig_chunks sg)).
Definition sig_stmt (sg : signal) : stmt := SExpr (EBin OAsg (fexp (s_name sg)) (sig_rhs sg)).

Definition sig_line (sg : signal) : string :=
  (if s_signed sg then
     "  _m->" ++ s_name sg ++ " = (" ++ print_type (s_typero sg) ++ ") " ++ ext_sig_name ++ "(( "
       ++ uj sg ++ " ), " ++ decZ (s_len sg) ++ ");"
   else
     "  _m->" ++ s_name sg ++ " = (" ++ print_type (s_typero sg) ++ ") ( " ++ uj sg ++ " );")%string.

Lemma is_ident_type : forall t, is_ident (print_type t) = true.
Proof. destruct t; reflexivity. Qed.
Lemma is_typename_type : forall t, is_typename (print_type t) = true.
Proof. destruct t; reflexivity. Qed.
Lemma std_type : forall t, std_types (print_type t) = Some (LInt t).
Proof. destruct t; reflexivity. Qed.

(** runs the expression parser up to an opening parenthesis of an operand *)
Ltac estep1 :=
  match goal with
  | |- context [erun ?s (?t :: ?l)] =>
      change (erun s (t :: l))
        with (match estep s t with Some s' => erun s' l | None => None end);
      cbn [estep];
      repeat match goal with
             | |- context [is_typename (String ?a ?b)] =>
                 let v := eval vm_compute in (is_typename (String a b)) in
                 change (is_typename (String a b)) with v
             | |- context [is_typename (print_type _)] => rewrite is_typename_type
             end;
      cbn [estep reduce rprec prec Nat.leb rev List.app]
  end.

Lemma no_semi_app : forall a b, no_semi (a ++ b) = no_semi a && no_semi b.
Proof. intros. apply forallb_app. Qed.

Lemma sig_line_stmts : forall dlc sg, sig_ok dlc sg -> dlc <= 64 ->
  line_stmts (sig_line sg) [sig_stmt sg].
Proof.
  intros dlc sg OK D.
  pose proof (sig_chunks_good dlc sg OK D) as G.
  assert (G' : forall c, In c (sig_chunks sg) -> good c) by (intros c I; apply G; auto).
  pose proof (ok_name dlc sg OK) as ID. pose proof (ok_len dlc sg OK) as LEN.
  unfold sig_line, sig_stmt, sig_rhs, uj. destruct (s_signed sg).
  - eapply stmt_line with (x := "_m"%string)
      (l := ([TP PArrow; TId (s_name sg); TP (PBin OAsg)] ++ ty_toks (s_typero sg)
              ++ [TId "__ext_sig__"; TP PLpar]
              ++ (TP PLpar :: utoks_all (sig_chunks sg) ++ [TP PRpar])
              ++ [TP PComma; TInt I32 (s_len sg); TP PRpar])%list).
    + unfold lex. rewrite <- (app_nil_r (_ ++ _)) at 1. rewrite !app_assoc.
      rewrite decZ_num by lia. unfold ext_sig_name.
      lexrun ltac:(first [ rewrite lex_ident' by (auto using is_ident_type)
                         | rewrite lex_ujoin by auto | rewrite lex_num by (auto; lia) ]).
      lexend. unfold ty_toks. appnorm. reflexivity.
    + reflexivity.
    + rewrite !no_semi_app. cbn [no_semi forallb]. rewrite no_semi_app, utoks_all_no_semi. reflexivity.
    + eapply parse_fin.
      * unfold ty_toks. cbn [List.app]. do 9 estep1. rewrite app_comm_cons, erun_app, uall_unit by apply sig_chunks_nonempty.
        reflexivity.
      * reflexivity.
  - eapply stmt_line with (x := "_m"%string)
      (l := ([TP PArrow; TId (s_name sg); TP (PBin OAsg)] ++ ty_toks (s_typero sg)
              ++ (TP PLpar :: utoks_all (sig_chunks sg) ++ [TP PRpar]))%list).
    + unfold lex. rewrite <- (app_nil_r (_ ++ _)) at 1. rewrite !app_assoc.
      lexrun ltac:(first [ rewrite lex_ident' by (auto using is_ident_type)
                         | rewrite lex_ujoin by auto | rewrite lex_num by (auto; lia) ]).
      lexend. unfold ty_toks. appnorm. reflexivity.
    + reflexivity.
    + rewrite !no_semi_app. cbn [no_semi forallb]. rewrite no_semi_app, utoks_all_no_semi. reflexivity.
    + eapply parse_fin.
      * unfold ty_toks. cbn [List.app]. do 7 estep1. rewrite uall_unit by apply sig_chunks_nonempty. reflexivity.
      * reflexivity.
Qed.

(** ** Values *)

(** the value of an integer object that contains [z] *)
Definition stored (l : lty) (z : Z) : cval :=
  match l with
  | LInt t => VI t z
  | LBits t w => VI (if is_signed t || (w <? 32) then I32 else t) z
  | _ => VI I32 z
  end.

Definition ext_ok (c : ctx) : Prop :=
  exists n0 c0, c_types c0 = std_types /\ c_macros c0 = c_macros c /\
                c_funs c "__ext_sig__"%string = Some (call_pure n0 c0 ext_def).

(** what the emitted statement computes for a signal *)
Definition unp (sg : signal) (d : list Z) : Z :=
  let v := unpacked (s_order sg) (s_start sg) (s_len sg) d in
  if s_signed sg then twos (s_len sg) v else v.

Lemma width_pos : forall t, 8 <= width t <= 64.
Proof. destruct t; cbn; lia. Qed.

Lemma carries_fits : forall sg z, raw_type_ok sg -> 1 <= s_len sg ->
  carries (s_signed sg) (s_len sg) z -> fits (s_typero sg) z = true.
Proof.
  intros sg z [S W] L C. unfold fits, ty_min, ty_max. rewrite S. unfold carries in C.
  destruct (s_signed sg).
  - pose proof (Z.pow_le_mono_r 2 (s_len sg - 1) (width (s_typero sg) - 1)). lia.
  - pose proof (Z.pow_le_mono_r 2 (s_len sg) (width (s_typero sg))). lia.
Qed.

Lemma swrap_carries : forall len z, 1 <= len -> carries true len z -> swrap len z = z.
Proof.
  intros len z L C. unfold carries in C. unfold swrap.
  assert (P : 2 ^ len = 2 * 2 ^ (len - 1)) by (rewrite <- Z.pow_succ_r by lia; f_equal; lia).
  destruct (Z_lt_ge_dec z 0).
  - replace (z mod 2 ^ len) with (z + 2 ^ len) by (apply Z.mod_unique with (-1); lia).
    destruct (Z.ltb_spec (z + 2 ^ len) (2 ^ (len - 1))); lia.
  - rewrite Z.mod_small by lia. destruct (Z.ltb_spec z (2 ^ (len - 1))); lia.
Qed.

Lemma store_carries : forall bits sg t z, raw_type_ok sg -> 1 <= s_len sg ->
  carries (s_signed sg) (s_len sg) z ->
  to_obj (field_ty bits sg) (VI t z) = Ok (stored (field_ty bits sg) z).
Proof.
  intros bits sg t z R L C. pose proof (carries_fits sg z R L C) as F.
  unfold field_ty. destruct (bits && (s_len sg <? 8)); cbn [to_obj to_int bind stored].
  - rewrite (conv_id _ _ F). destruct R as [S W]. rewrite S.
    unfold carries in C. destruct (s_signed sg).
    + now rewrite swrap_carries by auto.
    + unfold uwrap. now rewrite Z.mod_small by auto.
  - now rewrite (conv_id _ _ F).
Qed.

Lemma unp_carries : forall sg d, 1 <= s_len sg -> carries (s_signed sg) (s_len sg) (unp sg d).
Proof.
  intros sg d L. unfold unp.
  pose proof (unpacked_range (s_order sg) (s_start sg) (s_len sg) d ltac:(lia)).
  destruct (s_signed sg); [|exact H]. apply twos_carries; lia.
Qed.

Lemma or_expr_bin : forall l e, (exists o a b, e = EBin o a b) -> exists o a b, or_expr e l = EBin o a b.
Proof.
  induction l as [|x l IH]; intros e H; [exact H|]. cbn [or_expr fold_left].
  apply (IH (EBin OOr e (uexpr x))). eauto.
Qed.
Lemma uexpr_all_bin : forall l, l <> [] -> exists o a b, uexpr_all l = EBin o a b.
Proof.
  intros [|x l] N; [congruence|]. cbn [uexpr_all]. apply or_expr_bin.
  unfold uexpr. destruct (k_pos x =? 0); [destruct (k_lo x =? 0)|]; eauto.
Qed.

(** the payload is available to the function *)
Definition has_payload (m : mem) (arr : string) (dlc : Z) (d : list Z) : Prop :=
  m_arr m arr = Some d /\ dlc <= Z.of_nat (List.length d) /\ forall x, In x d -> is_byte x.

Definition ctx_ok (c : ctx) : Prop :=
  c_types c = std_types /\ names_free (c_macros c) /\ ext_ok c.

Lemma sig_rhs_eval : forall n c m dlc sg d, ctx_ok c -> sig_ok dlc sg -> dlc <= 64 ->
  has_payload m "_d" dlc d -> (s_signed sg = true -> s_len sg <= 32) ->
  eval n c m [] (sig_rhs sg) = Ok (VI (s_typero sg) (unp sg d)).
Proof.
  intros n c m dlc sg d (TY & NF & n0 & c0 & T0 & M0 & EX) OK D (A & LD & BY) S32.
  pose proof (ok_len _ _ OK) as LEN. pose proof (ok_type _ _ OK) as RT.
  pose proof (ok_start _ _ OK) as ST. pose proof (ok_in _ _ OK) as INF.
  assert (G : forall ch, In ch (sig_chunks sg) -> good ch /\ k_byte ch < Z.of_nat (List.length d)).
  { intros ch I. destruct (sig_chunks_good dlc sg OK D ch I). split; auto. lia. }
  destruct (eval_uall n c m d (sig_chunks sg) (sig_chunks_nonempty sg) A BY
              ltac:(rewrite TY; reflexivity) G) as (w & EV & BU & RG).
  assert (V : or_all d (sig_chunks sg) = unpacked (s_order sg) (s_start sg) (s_len sg) d)
    by (eapply or_all_chunks; eauto).
  rewrite V in EV.
  pose proof (unp_carries sg d ltac:(lia)) as C.
  pose proof (carries_fits sg _ RT ltac:(lia) C) as F.
  pose proof (unpacked_range (s_order sg) (s_start sg) (s_len sg) d ltac:(lia)) as UR.
  unfold sig_rhs. unfold unp in *. destruct (s_signed sg) eqn:SG.
  - rewrite eval_cast, TY, std_type.
    assert (NX : lookup "__ext_sig__"%string (c_macros c) = None) by (apply NF; cbn; tauto).
    rewrite (eval_call_fun n c m [] _ _ _ NX EX).
    destruct (uexpr_all_bin (sig_chunks sg) (sig_chunks_nonempty sg)) as (o & a & b & EB).
    cbn [eval_args]. rewrite EB in EV |- *. cbn [eval_arg]. rewrite EV. cbn [bind].
    rewrite eval_int. cbn [bind].
    rewrite ext_call; auto; [|rewrite M0; auto|lia].
    cbn [bind to_obj to_int]. now rewrite (conv_id _ _ F).
  - rewrite eval_cast, TY, std_type, EV. cbn [bind to_obj to_int]. now rewrite (conv_id _ _ F).
Qed.

(** ** The statements of all signals *)

Definition phys_rhs (g : gendesc) (sg : signal) : expr :=
  EUn (UCast (if s_double sg then "sigfloat_t" else print_type (s_typephys sg)))
      (ECall (n_DRV g ++ "_" ++ s_name sg ++ "_fromS") [fexp (s_name sg)]).
Definition phys_stmt (g : gendesc) (sg : signal) : stmt :=
  SExpr (EBin OAsg (fexp (s_namefloat sg)) (phys_rhs g sg)).
Definition phys_line (g : gendesc) (sg : signal) : string :=
  (if s_double sg then
     "  _m->" ++ s_namefloat sg ++ " = (sigfloat_t)(" ++ n_DRV g ++ "_" ++ s_name sg
       ++ "_fromS(_m->" ++ s_name sg ++ "));"
   else
     "  _m->" ++ s_namefloat sg ++ " = (" ++ print_type (s_typephys sg) ++ ") "
       ++ n_DRV g ++ "_" ++ s_name sg ++ "_fromS(_m->" ++ s_name sg ++ ");")%string.

Definition sig_items (g : gendesc) (sg : signal) (last : bool) : items :=
  ILine (sig_line sg) [sig_stmt sg]
    (if s_simple sg then (if last then ILine "" [] INil else INil)
     else ICond false (n_usesigfloat g) (ILine (phys_line g sg) [phys_stmt g sg] INil) false INil
            (" // " ++ n_usesigfloat g) (ILine "" [] INil)).

Fixpoint sigs_items (g : gendesc) (sgs : list signal) : items :=
  match sgs with
  | [] => INil
  | sg :: r => iapp (sig_items g sg (match r with [] => true | _ => false end)) (sigs_items g r)
  end.

Lemma sig_items_text : forall g sg last,
  map L (flat (sig_items g sg last)) = unpack_sig g sg (uj sg) last.
Proof.
  intros. unfold sig_items, unpack_sig, sig_line, phys_line.
  destruct (s_signed sg), (s_simple sg), last, (s_double sg); reflexivity.
Qed.
Lemma sigs_items_text : forall g sgs,
  map L (flat (sigs_items g sgs)) = unpack_sigs g sgs (map uj sgs).
Proof.
  induction sgs as [|sg r IH]; [reflexivity|]. cbn [sigs_items map unpack_sigs].
  rewrite flat_iapp, map_app, sig_items_text, IH. destruct r; reflexivity.
Qed.

Lemma fromS_ident : forall g sg, is_ident (n_DRV g) = true -> is_ident (s_name sg) = true ->
  is_ident (n_DRV g ++ "_" ++ s_name sg ++ "_fromS") = true.
Proof.
  intros. apply ident_app; auto. rewrite !all_chars_app, (ident_chars _ H0). reflexivity.
Qed.
Lemma fromS_not_type : forall a, is_typename (a ++ "_fromS") = false.
Proof.
  intros. eapply not_typename; [rewrite last_char_ends by discriminate; reflexivity| |]; reflexivity.
Qed.

Lemma phys_line_stmts : forall dlc g sg, gen_ok g -> sig_ok dlc sg -> s_simple sg = false ->
  line_stmts (phys_line g sg) [phys_stmt g sg].
Proof.
  intros dlc g sg GO OK S.
  pose proof (ok_name _ _ OK) as ID. destruct (ok_phys _ _ OK S) as [IDF _].
  pose proof (fromS_ident g sg (go_DRV g GO) ID) as IDC.
  set (f := (n_DRV g ++ "_" ++ s_name sg ++ "_fromS")%string) in *.
  assert (NT : is_typename f = false).
  { subst f. rewrite <- (app_assoc "_"), <- app_assoc. apply fromS_not_type. }
  unfold phys_line, phys_stmt, phys_rhs. fold f.
  assert (F1 : forall r, (n_DRV g ++ "_" ++ s_name sg ++ "_fromS(_m->" ++ r)%string
                         = (f ++ "(_m->" ++ r)%string).
  { intros. subst f. rewrite !app_assoc. reflexivity. }
  destruct (s_double sg).
  - rewrite F1.
    eapply stmt_line with (x := "_m"%string)
      (l := [TP PArrow; TId (s_namefloat sg); TP (PBin OAsg); TP PLpar; TId "sigfloat_t"; TP PRpar;
             TP PLpar; TId f; TP PLpar; TId "_m"; TP PArrow; TId (s_name sg); TP PRpar; TP PRpar]).
    + unfold lex. rewrite <- (app_nil_r (_ ++ _)) at 1. rewrite !app_assoc.
      lexrun ltac:(rewrite lex_ident' by (auto using is_ident_type)).
      lexend. reflexivity.
    + reflexivity.
    + reflexivity.
    + eapply parse_fin.
      * repeat (estep1; rewrite ?NT). reflexivity.
      * reflexivity.
  - rewrite F1.
    eapply stmt_line with (x := "_m"%string)
      (l := [TP PArrow; TId (s_namefloat sg); TP (PBin OAsg); TP PLpar;
             TId (print_type (s_typephys sg)); TP PRpar;
             TId f; TP PLpar; TId "_m"; TP PArrow; TId (s_name sg); TP PRpar]).
    + unfold lex. rewrite <- (app_nil_r (_ ++ _)) at 1. rewrite !app_assoc.
      lexrun ltac:(rewrite lex_ident' by (auto using is_ident_type)).
      lexend. reflexivity.
    + reflexivity.
    + reflexivity.
    + eapply parse_fin.
      * repeat (estep1; rewrite ?NT). reflexivity.
      * reflexivity.
Qed.

Definition sig_names (sg : signal) : list string :=
  if s_simple sg then [s_name sg] else [s_name sg; s_namefloat sg].
Definition sigs_names (sgs : list signal) : list string := flat_map sig_names sgs.
Definition sigs_paths (sgs : list signal) (q : string) : Prop :=
  exists x, In x (sigs_names sgs) /\ q = fpath x.

Lemma sigs_names_perm : forall sgs,
  Permutation (sigs_names sgs)
    (map s_name sgs ++ map s_namefloat (filter (fun sg => negb (s_simple sg)) sgs)).
Proof.
  induction sgs as [|sg r IH]; [constructor|].
  unfold sigs_names in *. cbn [flat_map map filter]. unfold sig_names at 1.
  destruct (s_simple sg); cbn [negb map List.app].
  - now constructor.
  - constructor. rewrite IH. apply Permutation_middle.
Qed.

Lemma only_val : forall P m m' q a, only P m m' -> ~ P q -> m_scal m q = a -> m_scal m' q = a.
Proof. intros P m m' q a (A & B & C) N E. rewrite C; auto. Qed.

Lemma only_typ : forall P m m' q t, only P m m' -> typ m q = Some t -> typ m' q = Some t.
Proof. intros P m m' q t (A & B & C) E. now rewrite B. Qed.

Lemma only_payload : forall P m m' a dlc d, only P m m' -> has_payload m a dlc d ->
  has_payload m' a dlc d.
Proof. intros P m m' a dlc d (A & B & C) H. unfold has_payload in *. now rewrite A. Qed.

(** the conversion macros of a signal compute [pf] *)
Definition phys_ok (n : nat) (c : ctx) (g : gendesc) (bits : bool) (pf : signal -> Z -> cval)
  (sg : signal) : Prop :=
  forall m z, carries (s_signed sg) (s_len sg) z ->
    m_scal m (fpath (s_name sg)) = Some (field_ty bits sg, stored (field_ty bits sg) z) ->
    m_arr m (fpath (s_name sg)) = None ->
    exists w, eval n c m [] (phys_rhs g sg) = Ok w /\ to_obj (phys_ty sg) w = Ok (pf sg z).

Lemma sigs_exec : forall n c g bits dlc d pf sgs m,
  ctx_ok c -> dlc <= 64 -> has_payload m "_d" dlc d ->
  (forall x, m_arr m (fpath x) = None) ->
  NoDup (sigs_names sgs) ->
  (forall sg, In sg sgs -> sig_ok dlc sg /\ (s_signed sg = true -> s_len sg <= 32) /\
      typ m (fpath (s_name sg)) = Some (field_ty bits sg)) ->
  (defined (n_usesigfloat g) (c_macros c) = true ->
   forall sg, In sg sgs -> s_simple sg = false ->
     typ m (fpath (s_namefloat sg)) = Some (phys_ty sg) /\ phys_ok n c g bits pf sg) ->
  exists m', exec_list n c m (stms (c_macros c) (sigs_items g sgs)) = Ok (m', None) /\
    only (sigs_paths sgs) m m' /\
    (forall sg, In sg sgs ->
       m_scal m' (fpath (s_name sg))
       = Some (field_ty bits sg, stored (field_ty bits sg) (unp sg d))) /\
    (forall sg, In sg sgs -> s_simple sg = false ->
       if defined (n_usesigfloat g) (c_macros c)
       then m_scal m' (fpath (s_namefloat sg)) = Some (phys_ty sg, pf sg (unp sg d))
       else m_scal m' (fpath (s_namefloat sg)) = m_scal m (fpath (s_namefloat sg))).
Proof.
  intros n c g bits dlc d pf sgs. set (SF := defined (n_usesigfloat g) (c_macros c)).
  induction sgs as [|sg r IH]; intros m CO D PL AR ND SO PO.
  { exists m. repeat split; auto; contradiction. }
  destruct (SO sg (or_introl eq_refl)) as (OK & S32 & TY).
  pose proof (sig_rhs_eval n c m dlc sg d CO OK D PL S32) as EV.
  pose proof (unp_carries sg d (proj1 (ok_len _ _ OK))) as CA.
  pose proof (store_carries bits sg (s_typero sg) (unp sg d) (ok_type _ _ OK) (proj1 (ok_len _ _ OK)) CA) as STO.
  set (m1 := set_scal m (fpath (s_name sg)) (field_ty bits sg, stored (field_ty bits sg) (unp sg d))).
  assert (E1 : exec n c m (sig_stmt sg) = Ok (m1, None)).
  { unfold sig_stmt. eapply exec_asg; eauto.
    - unfold sig_rhs. destruct (s_signed sg); exact I.
    - exact I. }
  assert (O1 : only (eq (fpath (s_name sg))) m m1) by (apply only_set; auto).
  assert (V1 : m_scal m1 (fpath (s_name sg))
               = Some (field_ty bits sg, stored (field_ty bits sg) (unp sg d)))
    by apply m_scal_set_same.
  cbn [sigs_items]. unfold sigs_names in ND. cbn [flat_map] in ND.
  (* the statements after the first one *)
  assert (STEP : exists m2, exec_list n c m (stms (c_macros c)
            (sig_items g sg (match r with [] => true | _ => false end))) = Ok (m2, None) /\
       only (sigs_paths [sg]) m m2 /\
       m_scal m2 (fpath (s_name sg))
         = Some (field_ty bits sg, stored (field_ty bits sg) (unp sg d)) /\
       (s_simple sg = false ->
          if SF then m_scal m2 (fpath (s_namefloat sg)) = Some (phys_ty sg, pf sg (unp sg d))
          else m_scal m2 (fpath (s_namefloat sg)) = m_scal m (fpath (s_namefloat sg)))).
  { assert (O1' : only (sigs_paths [sg]) m m1).
    { eapply only_weaken; [|exact O1]. intros q <-. exists (s_name sg). split; auto.
      unfold sigs_names. cbn [flat_map]. apply in_or_app. left.
      unfold sig_names. destruct (s_simple sg); left; auto. }
    assert (NE : s_simple sg = false -> s_namefloat sg <> s_name sg).
    { intros S. unfold sig_names in ND. rewrite S in ND. cbn [List.app] in ND.
      inversion ND as [|? ? NI _]; subst. intros E. apply NI. left. auto. }
    unfold sig_items. cbn [stms List.app]. rewrite exec_list_cons, E1. cbn [bind].
    destruct (s_simple sg) eqn:S.
    - exists m1. split; [|repeat split; auto; try discriminate; apply O1'].
      destruct r; reflexivity.
    - cbn [stms]. cbv zeta. rewrite ?xorb_false_l. fold SF. specialize (NE eq_refl).
      destruct SF eqn:SFE.
      + destruct (PO eq_refl sg (or_introl eq_refl) S) as (TP & PHY).
        destruct (PHY m1 (unp sg d) CA V1) as (w & EW & TW).
        { subst m1. rewrite m_arr_set_scal. apply AR. }
        set (m2 := set_scal m1 (fpath (s_namefloat sg)) (phys_ty sg, pf sg (unp sg d))).
        assert (E2 : exec n c m1 (phys_stmt g sg) = Ok (m2, None)).
        { unfold phys_stmt. eapply exec_asg; eauto.
          - exact I.
          - exact I.
          - eapply only_typ; eauto. }
        exists m2. cbn [stms List.app act fst snd]. rewrite exec_list_cons, E2. cbn [bind].
        split; [reflexivity|]. split; [|split].
        * eapply only_trans; [exact O1'|]. eapply only_weaken; [|apply only_set].
          -- intros q <-. exists (s_namefloat sg). split; auto.
             unfold sigs_names. cbn [flat_map]. apply in_or_app. left.
             unfold sig_names. rewrite S. right. left. auto.
          -- eapply only_typ; eauto.
        * subst m2. rewrite m_scal_set_other; auto. intros E. apply fpath_inj in E. congruence.
        * intros _. apply m_scal_set_same.
      + exists m1. cbn [stms List.app act fst snd]. split; [reflexivity|].
        split; [|split]; auto.
        intros _. subst m1. apply m_scal_set_other. intros E. apply fpath_inj in E. congruence. }
  destruct STEP as (m2 & E2 & O2 & V2 & F2).
  assert (NI : forall x, In x (sig_names sg) -> ~ In x (sigs_names r)).
  { intros x X Y. clear - ND X Y. unfold sigs_names in Y. induction (sig_names sg); [destruct X|].
    cbn [List.app] in ND. inversion ND as [|? ? N1 N2]; subst. destruct X as [->|X]; [|auto].
    apply N1. apply in_or_app. auto. }
  assert (NDr : NoDup (sigs_names r)).
  { clear - ND. induction (sig_names sg); auto. cbn [List.app] in ND. inversion ND; auto. }
  assert (NP : forall x, In x (sig_names sg) -> ~ sigs_paths r (fpath x)).
  { intros x X (y & Y & E). apply fpath_inj in E. subst y. now apply (NI x). }
  assert (NP' : forall x, In x (sigs_names r) -> ~ sigs_paths [sg] (fpath x)).
  { intros x X (y & Y & E). apply fpath_inj in E. subst y. unfold sigs_names in Y. cbn [flat_map] in Y.
    rewrite List.app_nil_r in Y. now apply (NI x). }
  assert (N1 : In (s_name sg) (sig_names sg)) by (unfold sig_names; destruct (s_simple sg); left; auto).
  assert (N2 : s_simple sg = false -> In (s_namefloat sg) (sig_names sg))
    by (intros S; unfold sig_names; rewrite S; right; left; auto).
  destruct (IH m2) as (m' & E3 & O3 & V3 & F3); auto.
  - eapply only_payload; eauto.
  - intros x. destruct O2 as (A & _). rewrite A. apply AR.
  - intros s I. destruct (SO s (or_intror I)) as (X & Y & Z). split; [|split]; auto.
    eapply only_typ; eauto.
  - intros SFE s I S. destruct (PO SFE s (or_intror I) S) as (X & Y). split; auto.
    eapply only_typ; eauto.
  - exists m'. split; [|split; [|split]].
    + rewrite stms_iapp, exec_list_app, E2. cbn [bind].
      rewrite act_nodef; [exact E3|].
      unfold sig_items. cbn [nodef]. destruct (s_simple sg); [destruct r; exact I|].
      cbn [nodef]. auto.
    + eapply only_trans; eapply only_weaken; [|exact O2| |exact O3].
      * intros q (x & X & E). exists x. split; auto. unfold sigs_names in *. cbn [flat_map] in *.
        rewrite List.app_nil_r in X. apply in_or_app. auto.
      * intros q (x & X & E). exists x. split; auto. unfold sigs_names in *. cbn [flat_map] in *.
        apply in_or_app. auto.
    + intros s [<-|I]; [|auto]. eapply only_val; eauto.
    + intros s [<-|I] S.
      * specialize (F2 S). assert (K : m_scal m' (fpath (s_namefloat sg)) = m_scal m2 (fpath (s_namefloat sg))).
        { destruct O3 as (_ & _ & C). apply C. auto. }
        rewrite K. exact F2.
      * specialize (F3 s I S). destruct SF; auto. rewrite F3.
        destruct O2 as (_ & _ & C). apply C. apply NP'.
        unfold sigs_names. apply in_flat_map. exists s. split; auto. unfold sig_names. rewrite S.
        right. left. auto.
Qed.
