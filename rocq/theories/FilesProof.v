(** The monitor files, line by line. *)

From Coq Require Import ZArith NArith List String Ascii Bool Lia ZifyBool Permutation.
From Verif Require Import Base Dbl CSyntax CSem CRun Types Formatter SigPrinter Writer Settings StaticText MainGen App CodecSpec MsgSpec
  LexLemmas ScanLemmas PPProof BodyLemmas UnpackBody PackProof SourceFun DriverSpec DriverProof HeaderProof StructSpec GuardSpec FilesSpec.
Import ListNotations.
Open Scope string_scope.

(** ** Removing comments piece by piece *)

Fixpoint uemit (p : cpos) (t : string) : string * cpos :=
  match t with
  | EmptyString => ("", p)
  | String c r => let '(s, q) := ustep p c in let '(u, e) := uemit q r in (s ++ u, e)
  end.
Lemma uncomment_app : forall a p b, uncomment_from p (a ++ b) = fst (uemit p a) ++ uncomment_from (snd (uemit p a)) b.
Proof.
  induction a as [|c a IH]; intros p b; [reflexivity|]. cbn [String.append uncomment_from uemit]. destruct (ustep p c) as [s q].
  rewrite IH. destruct (uemit q a) as [u e]. cbn [fst snd]. now rewrite app_assoc.
Qed.
Lemma uemit_app : forall a p b, uemit p (a ++ b) = (fst (uemit p a) ++ fst (uemit (snd (uemit p a)) b), snd (uemit (snd (uemit p a)) b)).
Proof.
  induction a as [|c a IH]; intros p b; cbn [String.append uemit fst snd]; [now destruct (uemit p b)|]. destruct (ustep p c) as [s q].
  rewrite IH. destruct (uemit q a) as [u e]. cbn [fst snd]. now rewrite app_assoc.
Qed.

(** a piece that starts and ends in code, with full lines *)
Definition becomes (p q : string) : Prop := uemit Code p = (q, Code) /\ full q.
Lemma uncomment_pieces : forall ps qs, Forall2 becomes ps qs -> lines (uncomment (sconcat ps)) = plines qs.
Proof.
  intros ps qs F. rewrite <- lines_pieces; [|induction F as [|p q ps qs [_ X] F IH]; constructor; auto]. f_equal.
  induction F as [|p q ps qs [X _] F IH]; [reflexivity|]. cbn [sconcat]. unfold uncomment in *. rewrite uncomment_app, X. cbn [fst snd]. now rewrite IH.
Qed.

(** code without slashes and quotes *)
Definition quiet (c : ascii) : bool := negb (Ascii.eqb c "/") && negb (Ascii.eqb c DQ).
Lemma uemit_quiet : forall s, all_chars quiet s = true -> uemit Code s = (s, Code).
Proof.
  induction s as [|c s IH]; intros H; [reflexivity|]. cbn [all_chars] in H. apply andb_true_iff in H as [A B]. unfold quiet in A.
  apply andb_true_iff in A as [A1 A2]. apply negb_true_iff in A1, A2. cbn [uemit ustep]. rewrite A1, A2, (IH B). reflexivity.
Qed.
Lemma id_quiet : forall s, all_chars is_idchar s = true -> all_chars quiet s = true.
Proof. intros s. apply all_chars_impl. intros c. apply ascii_impl. vm_compute. reflexivity. Qed.
Lemma becomes_L : forall s, all_chars quiet s = true -> raw_ok s -> becomes (L s) (L s).
Proof.
  intros s Q R. split; [|apply L_full]. rewrite (L_raw s R). apply uemit_quiet. rewrite all_chars_app, Q. reflexivity.
Qed.
Lemma becomes_const : forall p q, uemit Code p = (q, Code) -> full q -> becomes p q.
Proof. split; auto. Qed.
(** in a string, in a line comment *)
Lemma uemit_str : forall s, all_chars is_idchar s = true -> uemit InStr s = (s, InStr).
Proof.
  induction s as [|c s IH]; intros H; [reflexivity|]. cbn [all_chars] in H. apply andb_true_iff in H as [A B].
  assert (X : Ascii.eqb c DQ = false /\ Ascii.eqb c "\" = false) by (split; [revert c A; apply (ascii_excl is_idchar (fun c => Ascii.eqb c DQ))|revert c A; apply (ascii_excl is_idchar (fun c => Ascii.eqb c "\"))]; vm_compute; reflexivity).
  destruct X as [X Y]. cbn [uemit ustep]. rewrite X, Y, (IH B). reflexivity.
Qed.
Lemma uemit_line : forall s, no_nl s = true -> uemit InLine s = ("", InLine).
Proof.
  induction s as [|c s IH]; intros H; [reflexivity|]. unfold no_nl in *. cbn [has_char] in H. apply negb_true_iff, orb_false_iff in H as [A B].
  cbn [uemit ustep]. rewrite Ascii.eqb_sym, A. rewrite IH by (now rewrite B). reflexivity.
Qed.

Lemma becomes_app : forall a b x y, becomes a x -> becomes b y -> becomes (a ++ b) (x ++ y).
Proof.
  intros a b x y [A FA] [B FB]. split.
  - rewrite uemit_app, A. cbn [fst snd]. now rewrite B.
  - destruct FA as [->|[r ->]]; [exact FB|]. destruct FB as [->|[q ->]]; [right; exists r; now rewrite app_nil_r|].
    right. exists (r ++ nl ++ q). now rewrite !app_assoc.
Qed.
Lemma becomes_comment : forall a, no_nl a = true -> becomes ("//" ++ a ++ nl) nl.
Proof.
  intros a N. split; [|right; now exists ""]. rewrite (uemit_app "//"). change (uemit Code "//") with ("", InLine). cbn [fst snd].
  rewrite uemit_app, (uemit_line a N). reflexivity.
Qed.
Definition blank_lines (t : string) : Prop := full t /\ exists k, lines t = repeat "" k.
Lemma common_blank : forall date, match date with Some t => no_nl t = true | None => True end ->
  exists q, becomes (common_info date) q /\ blank_lines q.
Proof.
  intros date D. unfold common_info. destruct date as [t|].
  - exists (nl ++ nl). split; [|split; [right; now exists nl|exists 2%nat; reflexivity]].
    replace ("// Generator version : v3.1" ++ nl ++ "// Generation time   : " ++ t ++ nl) with
      (("//" ++ " Generator version : v3.1" ++ nl) ++ ("//" ++ (" Generation time   : " ++ t) ++ nl)) by (rewrite ?app_assoc; reflexivity).
    apply becomes_app; apply becomes_comment; [reflexivity|]. rewrite no_nl_app. exact D.
  - exists nl. split; [exact (becomes_comment " Generator version : v3.1" eq_refl)|]. split; [right; now exists ""|exists 1%nat; reflexivity].
Qed.
Lemma driver_blank : forall dbc, no_nl dbc = true -> exists q, becomes (driver_info dbc) q /\ blank_lines q.
Proof.
  intros dbc D. exists nl. split; [|split; [right; now exists ""|exists 1%nat; reflexivity]]. unfold driver_info.
  replace ("// DBC filename      : " ++ extract_file_name dbc ++ nl) with ("//" ++ (" DBC filename      : " ++ extract_file_name dbc) ++ nl) by (rewrite ?app_assoc; reflexivity).
  apply becomes_comment. rewrite no_nl_app. unfold extract_file_name. rewrite extract_nonl by auto. reflexivity.
Qed.

(** ** What is used of the settings *)

Record files_ok (g : gendesc) (ci di : string) : Prop := {
  fo_head : head_ok g;
  fo_low : is_ident (n_drv g) = true;
  fo_eqs : n_verhi g = "VER_" ++ n_DRV g ++ "_MAJ" /\ n_verlow g = "VER_" ++ n_DRV g ++ "_MIN" /\ n_usemon g = n_DRV g ++ "_USE_DIAG_MONITORS";
  fo_com : becomes (n_cominfo g) ci /\ blank_lines ci;
  fo_drv : becomes (n_drvinfo g) di /\ blank_lines di
}.
Lemma configure_files : forall drv out date dbc hi low nc ni nf,
  is_ident drv = true -> (String.length drv <= 900)%nat -> match date with Some t => no_nl t = true | None => True end -> no_nl dbc = true ->
  (0 <= hi < 2 ^ 32)%Z -> (0 <= low < 2 ^ 32)%Z ->
  exists ci di, files_ok (st_g (configure drv out (common_info date) (driver_info dbc) hi low nc ni nf)) ci di.
Proof.
  intros drv out date dbc hi low nc ni nf I LN D B H1 H2. destruct (common_blank date D) as (ci & C1 & C2). destruct (driver_blank dbc B) as (di & D1 & D2).
  exists ci, di. assert (LU : String.length (str_toupper drv) = String.length drv) by apply len_map.
  constructor; [now apply configure_head|now apply lower_ident| |split; assumption|split; assumption].
  unfold configure. cbn [st_g n_verhi n_verlow n_usemon n_DRV]. rewrite !tmpb_short by (rewrite !app_len, ?LU; cbn [String.length]; lia). auto.
Qed.

(** ** Pieces with names in them *)

Ltac allq := rewrite ?all_chars_app; repeat match goal with
  | |- context [all_chars quiet (String ?a ?b)] => let v := eval vm_compute in (all_chars quiet (String a b)) in change (all_chars quiet (String a b)) with v
  | H : all_chars is_idchar ?x = true |- context [all_chars quiet ?x] => rewrite (id_quiet x H)
  end; try reflexivity.
Lemma becomes_include : forall x r, all_chars is_idchar x = true -> (String.length x <= 1000)%nat -> uemit InStr (r ++ dq) = (r ++ dq, Code) -> no_nl r = true ->
  (String.length r <= 100)%nat -> becomes (L ("#include " ++ dq ++ x ++ r ++ dq)) (L ("#include " ++ dq ++ x ++ r ++ dq)).
Proof.
  intros x r X LX R NR LR. pose proof (no_nl_ident x X) as NX. assert (RO : raw_ok ("#include " ++ dq ++ x ++ r ++ dq)) by (unfold dq; raw).
  split; [|apply L_full]. rewrite (L_raw _ RO). rewrite !app_assoc. rewrite (uemit_app "#include "). change (uemit Code "#include ") with ("#include ", Code). cbn [fst snd].
  rewrite (uemit_app dq). change (uemit Code dq) with (dq, InStr). cbn [fst snd]. rewrite (uemit_app x), (uemit_str x X). cbn [fst snd].
  replace (r ++ dq ++ nl) with ((r ++ dq) ++ nl) by apply app_assoc. rewrite (uemit_app (r ++ dq)), R. cbn [fst snd]. change (uemit Code nl) with (nl, Code). cbn [fst snd]. now rewrite ?app_assoc.
Qed.
Lemma becomes_endif : forall x, no_nl x = true -> (String.length x <= 1100)%nat -> becomes (L ("#endif // " ++ x)) (L "#endif ").
Proof.
  intros x N LX. assert (RO : raw_ok ("#endif // " ++ x)) by raw. split; [|apply L_full]. rewrite (L_raw _ RO), app_assoc, (uemit_app "#endif // ").
  change (uemit Code "#endif // ") with ("#endif ", InLine). cbn [fst snd]. rewrite uemit_app, (uemit_line x N). reflexivity.
Qed.

(** ** The header *)

Definition deflist (ds : list string) (r : items) : items := fold_right (fun s r => IDef s r) r ds.
Lemma flat_deflist : forall ds r, flat (deflist ds r) = (map (fun s => "#define " ++ s)%string ds ++ flat r)%list.
Proof. induction ds; intros; cbn [deflist fold_right flat map List.app]; auto. f_equal. apply IHds. Qed.
Lemma iwf_deflist : forall ds r, Forall def_head ds -> iwf r -> iwf (deflist ds r).
Proof. induction ds; intros r F W; [exact W|]. inversion F; subst. cbn [deflist fold_right iwf]. split; auto. now apply IHds. Qed.
Lemma macs_deflist : forall ds M r, macs M (deflist ds r) = macs (rev (map pp_define ds) ++ M)%list r.
Proof.
  induction ds as [|x ds IH]; intros M r; [reflexivity|]. cbn [deflist fold_right map rev]. unfold macs in *. cbn [act]. unfold deflist in IH. rewrite IH.
  rewrite <- List.app_assoc. reflexivity.
Qed.
Lemma toks_deflist : forall ds M r, toks M (deflist ds r) = toks (rev (map pp_define ds) ++ M)%list r.
Proof.
  induction ds as [|x ds IH]; intros M r; [reflexivity|]. cbn [deflist fold_right map rev]. unfold toks in *. cbn [act]. unfold deflist in IH. rewrite IH.
  rewrite <- List.app_assoc. reflexivity.
Qed.

Definition mono_fun (g : gendesc) : string := "_FMon_MONO_" ++ n_drv g.
Definition own_fun (g : gendesc) (nm : string) : string := "_FMon_" ++ nm ++ "_" ++ n_drv g.
Definition hook_def (g : gendesc) (nm f : string) : string := "FMon_" ++ nm ++ "_" ++ n_drv g ++ "(x, y) " ++ f ++ "((x), (y))".
Definition proto_line (f : string) : string := "void " ++ f ++ "(FrameMonitor_t* _mon, uint32_t msgid);".
Definition usemono (g : gendesc) : string := n_DRV g ++ "_USE_MONO_FMON".

Definition monh_inner (g : gendesc) (names : list string) : items :=
  clist [""] (ISkip ("#include " ++ dq ++ "canmonitorutil.h" ++ dq) (clist [" "; ""]
    (ICond false (usemono g)
       (clist [""; proto_line (mono_fun g); ""] (deflist (map (fun nm => hook_def g nm (mono_fun g)) names) (clist [""] INil))) true
       (clist [""] (clist (map (fun nm => proto_line (own_fun g nm)) names) (clist [""]
          (deflist (map (fun nm => hook_def g nm (own_fun g nm)) names) (clist [""] INil))))) ""
       (clist [""] INil)))).
Definition monh_items (g : gendesc) (pre : list string) (names : list string) : items :=
  clist pre (ISkip "#pragma once" (clist [""] (ICond false "__cplusplus" (clist ["extern ""C"" {"] INil) false INil "" (clist [""; ""]
    (IDef (n_verhi g ++ "_FMON (" ++ pu (n_hi g) ++ "U)") (IDef (n_verlow g ++ "_FMON (" ++ pu (n_low g) ++ "U)") (clist [""]
      (ISkip ("#include " ++ dq ++ n_drv g ++ "-config.h" ++ dq) (clist [""]
        (ICond false (n_usemon g) (monh_inner g names) false INil " " (clist [""]
          (ICond false "__cplusplus" (clist ["}"] INil) false INil "" INil)))))))))))).

Section Monitors.
Variables (g : gendesc) (ci di : string) (names : list string).
Hypothesis FO : files_ok g ci di.
Hypothesis NM : forall nm, In nm names -> is_ident nm = true /\ (String.length nm <= 1000)%nat.

Lemma fdrv : is_ident (n_drv g) = true /\ (String.length (n_drv g) <= 1000)%nat.
Proof using FO. clear NM. split; [apply (fo_low _ _ _ FO)|]. pose proof (go_len g (so_gen _ _ (hd_src _ (fo_head _ _ _ FO)))). lia. Qed.
Lemma fDRV : is_ident (n_DRV g) = true /\ (String.length (n_DRV g) <= 1000)%nat.
Proof using FO. clear NM. pose proof (so_gen _ _ (hd_src _ (fo_head _ _ _ FO))) as GO. split; [apply (go_DRV g GO)|]. pose proof (go_len g GO). lia. Qed.
Lemma fmono : is_ident (usemono g) = true /\ (String.length (usemono g) <= 1100)%nat.
Proof using FO. clear NM.
  destruct fDRV as [A B]. unfold usemono. split; [now apply ident_prefix|]. rewrite app_len. cbn [String.length]. lia.
Qed.
Lemma fmon : is_ident (n_usemon g) = true /\ (String.length (n_usemon g) <= 1100)%nat.
Proof using FO. clear NM. pose proof (so_gen _ _ (hd_src _ (fo_head _ _ _ FO))) as GO. split; [apply (go_mon g GO)|]. pose proof (go_len g GO). lia. Qed.

Definition monh_strip : list string :=
  ([ci; di; L "#pragma once"; nls 1; L cpp_open; nls 1; nl;
    L ("#define " ++ n_verhi g ++ "_FMON (" ++ pu (n_hi g) ++ "U)");
    L ("#define " ++ n_verlow g ++ "_FMON (" ++ pu (n_low g) ++ "U)"); nls 1;
    L ("#include " ++ dq ++ n_drv g ++ "-config.h" ++ dq); nls 1;
    L ("#ifdef " ++ n_usemon g); nls 1;
    L ("#include " ++ dq ++ "canmonitorutil.h" ++ dq); L " "; nls 1;
    L ("#ifdef " ++ usemono g); nls 1; L (proto_line (mono_fun g)); nls 1]
   ++ map (fun nm => L ("#define " ++ hook_def g nm (mono_fun g))) names
   ++ [nls 1; L "#else"; nls 1] ++ map (fun nm => L (proto_line (own_fun g nm))) names ++ [nls 1]
   ++ map (fun nm => L ("#define " ++ hook_def g nm (own_fun g nm))) names
   ++ [nls 1; L "#endif"; nls 1; L "#endif "; nls 1; L cpp_close])%list.

Lemma Forall2_map : forall (f h : string -> string) l, (forall x, In x l -> becomes (f x) (h x)) -> Forall2 becomes (map f l) (map h l).
Proof. induction l; intros H; constructor; [apply H; now left|apply IHl; intros; apply H; now right]. Qed.

Lemma pu_quiet : forall z, all_chars quiet (pu z) = true.
Proof.
  intros z. unfold pu. pose proof (dec_digits (Z.to_N z)) as D. revert D. apply all_chars_impl. intros c. apply ascii_impl. vm_compute. reflexivity.
Qed.
Ltac lcase := first [apply becomes_const; [vm_compute; reflexivity|first [apply L_full|apply nls_full|right; now exists ""]]
  | apply becomes_L; [allq|unfold dq; raw]].

Lemma monh_becomes : forall xs, map (fun x => g_name (x_msg x)) xs = names -> Forall2 becomes (fmon_header g xs) monh_strip.
Proof.
  intros xs EN. destruct fdrv as [D1 D2], fDRV as [E1 E2], fmono as [O1 O2], fmon as [U1 U2].
  destruct (hd_ver _ (fo_head _ _ _ FO)) as [V1 V2]. destruct (so_len _ _ (hd_src _ (fo_head _ _ _ FO))) as (S1 & S2 & S3 & S4 & S5 & S6 & S7).
  pose proof (ident_chars _ D1) as D1'. pose proof (ident_chars _ E1) as E1'. pose proof (ident_chars _ O1) as O1'. pose proof (ident_chars _ U1) as U1'.
  pose proof (ident_chars _ V1) as V1'. pose proof (ident_chars _ V2) as V2'.
  pose proof (no_nl_ident' _ D1) as ND. pose proof (no_nl_ident' _ O1) as NO. pose proof (no_nl_ident' _ U1) as NU. pose proof (no_nl_ident' _ V1) as NV1. pose proof (no_nl_ident' _ V2) as NV2.
  unfold fmon_header, monh_strip. rewrite EN.
  repeat (apply Forall2_app).
  - constructor; [apply (fo_com _ _ _ FO)|]. constructor; [apply (fo_drv _ _ _ FO)|].
    constructor; [lcase|]. constructor; [lcase|]. constructor; [lcase|]. constructor; [lcase|]. constructor; [lcase|].
    constructor; [apply becomes_L; [rewrite !all_chars_app, (id_quiet _ V1'), pu_quiet; reflexivity|raw]|].
    constructor; [apply becomes_L; [rewrite !all_chars_app, (id_quiet _ V2'), pu_quiet; reflexivity|raw]|].
    constructor; [lcase|]. 
    constructor; [apply (becomes_include (n_drv g) "-config.h"); auto; cbn [String.length]; lia|].
    constructor; [lcase|]. constructor; [lcase|]. constructor; [lcase|].
    constructor; [apply (becomes_include "canmonitorutil" ".h"); auto; cbn [String.length]; lia|].
    constructor; [lcase|]. constructor; [lcase|]. constructor; [fold (usemono g); lcase|].
    constructor; [lcase|]. constructor; [unfold proto_line, mono_fun; apply becomes_L; [allq|raw]|]. constructor; [lcase|]. constructor.
  - apply Forall2_map. intros nm I. destruct (NM nm I) as [A B]. pose proof (ident_chars _ A) as A'. pose proof (no_nl_ident' _ A) as NA.
    unfold hook_def, mono_fun. lcase.
  - constructor; [lcase|]. constructor; [lcase|]. constructor; [lcase|]. constructor.
  - apply Forall2_map. intros nm I. destruct (NM nm I) as [A B]. pose proof (ident_chars _ A) as A'. pose proof (no_nl_ident' _ A) as NA.
    unfold proto_line, own_fun. rewrite !app_assoc. lcase.
  - constructor; [lcase|]. constructor.
  - apply Forall2_map. intros nm I. destruct (NM nm I) as [A B]. pose proof (ident_chars _ A) as A'. pose proof (no_nl_ident' _ A) as NA.
    unfold hook_def, own_fun. rewrite !app_assoc. lcase.
  - constructor; [lcase|]. constructor; [lcase|]. constructor; [lcase|]. constructor; [now apply becomes_endif|].
    constructor; [lcase|]. constructor; [lcase|]. constructor.
Qed.

Lemma hook_def_ident : forall nm f, is_ident nm = true -> def_head (hook_def g nm f).
Proof. intros nm f I. exists "F"%char, ("Mon_" ++ nm ++ "_" ++ n_drv g ++ "(x, y) " ++ f ++ "((x), (y))"). split; reflexivity. Qed.

Lemma monh_text : plines monh_strip = flat (monh_items g (lines ci ++ lines di)%list names).
Proof.
  destruct fdrv as [D1 D2], fDRV as [E1 E2], fmono as [O1 O2], fmon as [U1 U2].
  destruct (hd_ver _ (fo_head _ _ _ FO)) as [V1 V2]. destruct (so_len _ _ (hd_src _ (fo_head _ _ _ FO))) as (S1 & S2 & S3 & S4 & S5 & S6 & S7).
  pose proof (no_nl_ident' _ D1) as ND. pose proof (no_nl_ident' _ O1) as NO. pose proof (no_nl_ident' _ U1) as NU. pose proof (no_nl_ident' _ V1) as NV1. pose proof (no_nl_ident' _ V2) as NV2.
  unfold monh_strip. rewrite !plines_app.
  assert (P1 : plines (map (fun nm => L ("#define " ++ hook_def g nm (mono_fun g))) names) = map (fun s => "#define " ++ s) (map (fun nm => hook_def g nm (mono_fun g)) names)).
  { rewrite <- (map_map (fun nm => "#define " ++ hook_def g nm (mono_fun g)) L), plines_raws; [now rewrite map_map|]. apply Forall_forall. intros x I.
    apply in_map_iff in I as (nm & <- & I). destruct (NM nm I) as [A B]. pose proof (no_nl_ident' _ A) as NA. unfold hook_def, mono_fun. raw. }
  assert (P2 : plines (map (fun nm => L (proto_line (own_fun g nm))) names) = map (fun nm => proto_line (own_fun g nm)) names).
  { rewrite <- (map_map (fun nm => proto_line (own_fun g nm)) L), plines_raws; [reflexivity|]. apply Forall_forall. intros x I.
    apply in_map_iff in I as (nm & <- & I). destruct (NM nm I) as [A B]. pose proof (no_nl_ident' _ A) as NA. unfold proto_line, own_fun. raw. }
  assert (P3 : plines (map (fun nm => L ("#define " ++ hook_def g nm (own_fun g nm))) names) = map (fun s => "#define " ++ s) (map (fun nm => hook_def g nm (own_fun g nm)) names)).
  { rewrite <- (map_map (fun nm => "#define " ++ hook_def g nm (own_fun g nm)) L), plines_raws; [now rewrite map_map|]. apply Forall_forall. intros x I.
    apply in_map_iff in I as (nm & <- & I). destruct (NM nm I) as [A B]. pose proof (no_nl_ident' _ A) as NA. unfold hook_def, own_fun. raw. }
  rewrite P1, P2, P3. unfold plines. cbn [flat_map].
  rewrite (lines_L ("#define " ++ n_verhi g ++ "_FMON (" ++ pu (n_hi g) ++ "U)")) by raw.
  rewrite (lines_L ("#define " ++ n_verlow g ++ "_FMON (" ++ pu (n_low g) ++ "U)")) by raw.
  rewrite (lines_L ("#include " ++ dq ++ n_drv g ++ "-config.h" ++ dq)) by (unfold dq; raw).
  rewrite (lines_L ("#ifdef " ++ n_usemon g)) by raw.
  rewrite (lines_L ("#ifdef " ++ usemono g)) by raw.
  rewrite (lines_L (proto_line (mono_fun g))) by (unfold proto_line, mono_fun; raw).
  replace (lines (L cpp_open)) with ["#ifdef __cplusplus"; "extern ""C"" {"; "#endif"] by (vm_compute; reflexivity).
  replace (lines (L cpp_close)) with ["#ifdef __cplusplus"; "}"; "#endif"] by (vm_compute; reflexivity).
  replace (lines (L ("#include " ++ dq ++ "canmonitorutil.h" ++ dq))) with ["#include " ++ dq ++ "canmonitorutil.h" ++ dq] by (vm_compute; reflexivity).
  replace (lines (L "#endif ")) with ["#endif "] by (vm_compute; reflexivity).
  change (lines nl) with [""]. litlines.
  unfold monh_items, monh_inner. repeat (rewrite ?flat_clist, ?flat_deflist; cbn [flat]).
  do 4 (cbn [List.app]; rewrite ?List.app_nil_r, <- ?List.app_assoc). cbn [List.app]. reflexivity.
Qed.

Lemma blank_plain : forall t, blank_lines t -> Forall (fun s => directive s = None) (lines t) /\ List.concat (map lex (lines t)) = [].
Proof.
  intros t [_ [k ->]]. split; [induction k; constructor; auto|induction k; [reflexivity|exact IHk]].
Qed.
Lemma proto_directive : forall f, directive (proto_line f) = None.
Proof. intros. unfold proto_line. apply (dir_cons "v"). discriminate. Qed.

Lemma monh_wf : iwf (monh_items g (lines ci ++ lines di)%list names).
Proof.
  destruct fdrv as [D1 D2], fDRV as [E1 E2], fmono as [O1 O2], fmon as [U1 U2].
  destruct (hd_ver _ (fo_head _ _ _ FO)) as [V1 V2].
  destruct (blank_plain ci (proj2 (fo_com _ _ _ FO))) as [B1 _]. destruct (blank_plain di (proj2 (fo_drv _ _ _ FO))) as [B2 _].
  assert (VH : forall x r, is_ident x = true -> def_head (x ++ r)).
  { intros x r I. destruct x as [|c x]; [discriminate|]. exists c, (x ++ r)%string. split; [reflexivity|]. apply ident_chars in I. cbn [all_chars] in I. now apply andb_true_iff in I. }
  assert (HD : forall f, Forall def_head (map (fun nm => hook_def g nm (f nm)) names)).
  { intros f. apply Forall_forall. intros x I. apply in_map_iff in I as (nm & <- & I). apply hook_def_ident. now apply NM. }
  assert (PL : forall ls, Forall (fun s => directive s = None) [""; ls] <-> directive ls = None).
  { intros. split; [intros F; now inversion F as [|? ? ? F2]; inversion F2|intros; repeat constructor; auto]. }
  assert (PR : Forall (fun s => directive s = None) (map (fun nm => proto_line (own_fun g nm)) names)).
  { apply Forall_forall. intros x I. apply in_map_iff in I as (nm & <- & I). apply proto_directive. }
  unfold monh_items. apply iwf_clist; [now apply Forall_app|]. cbn [iwf]. split; [eexists _, _; split; reflexivity|].
  apply iwf_clist; [repeat constructor|]. cbn [iwf]. split; [reflexivity|]. split; [apply iwf_clist; [repeat constructor|exact Logic.I]|].
  split; [exact Logic.I|]. split; [reflexivity|]. split; [now left|]. apply iwf_clist; [repeat constructor|]. cbn [iwf].
  split; [now apply VH|]. split; [now apply VH|]. apply iwf_clist; [repeat constructor|]. cbn [iwf]. split; [apply skip_include|].
  apply iwf_clist; [repeat constructor|]. cbn [iwf]. split; [exact U1|]. split.
  { unfold monh_inner. apply iwf_clist; [repeat constructor|]. cbn [iwf]. split; [apply skip_include|]. apply iwf_clist; [repeat constructor|].
    cbn [iwf]. split; [exact O1|]. split; [|split; [|split; [discriminate|split; [now left|apply iwf_clist; [repeat constructor|exact Logic.I]]]]].
    - apply iwf_clist; [repeat constructor; apply proto_directive|]. apply iwf_deflist; [exact (HD (fun _ => mono_fun g))|]. apply iwf_clist; [repeat constructor|exact Logic.I].
    - apply iwf_clist; [repeat constructor|]. apply iwf_clist; [exact PR|]. apply iwf_clist; [repeat constructor|].
      apply iwf_deflist; [exact (HD (own_fun g))|]. apply iwf_clist; [repeat constructor|exact Logic.I]. }
  split; [exact Logic.I|]. split; [reflexivity|]. split; [right; now exists ""|]. apply iwf_clist; [repeat constructor|]. cbn [iwf].
  split; [reflexivity|]. split; [apply iwf_clist; [repeat constructor|exact Logic.I]|]. split; [exact Logic.I|]. split; [reflexivity|]. split; [now left|exact Logic.I].
Qed.

(** what the header does to the macro table, and the prototypes it leaves *)
Definition ver_defs (M : mtable) : mtable :=
  pp_define (n_verlow g ++ "_FMON (" ++ pu (n_low g) ++ "U)") :: pp_define (n_verhi g ++ "_FMON (" ++ pu (n_hi g) ++ "U)") :: M.
Definition target (M : mtable) (nm : string) : string := if defined (usemono g) M then mono_fun g else own_fun g nm.
Lemma cplusplus_macs : forall M ls, macs M (if xorb false (defined "__cplusplus" M) then clist ls INil else INil) = M.
Proof. intros. destruct (xorb _ _); [now rewrite macs_clist|reflexivity]. Qed.
Lemma macs_def : forall M s r, macs M (IDef s r) = macs (pp_define s :: M) r.
Proof. reflexivity. Qed.
Lemma macs_skip : forall M s r, macs M (ISkip s r) = macs M r.
Proof. reflexivity. Qed.
Lemma toks_def : forall M s r, toks M (IDef s r) = toks (pp_define s :: M) r.
Proof. reflexivity. Qed.
Lemma toks_skip : forall M s r, toks M (ISkip s r) = toks M r.
Proof. reflexivity. Qed.
Lemma monh_macs : forall M pre, macs M (monh_items g pre names)
  = if defined (n_usemon g) (ver_defs M) then (rev (map pp_define (map (fun nm => hook_def g nm (target (ver_defs M) nm)) names)) ++ ver_defs M)%list else ver_defs M.
Proof.
  intros M pre. unfold monh_items. rewrite macs_clist, macs_skip, macs_clist, macs_cond, cplusplus_macs, macs_clist, !macs_def, macs_clist, macs_skip, macs_clist.
  fold (ver_defs M). rewrite macs_cond, macs_clist, macs_cond, cplusplus_macs. cbn [xorb]. destruct (defined (n_usemon g) (ver_defs M)); [|reflexivity].
  unfold monh_inner. rewrite macs_clist, macs_skip, macs_clist, macs_cond, macs_clist. cbn [xorb]. unfold target. destruct (defined (usemono g) (ver_defs M)).
  - rewrite macs_clist, macs_deflist, macs_clist. reflexivity.
  - rewrite !macs_clist, macs_deflist, macs_clist. reflexivity.
Qed.

(** ** Names that are different *)

Lemma last_differs : forall a b c d, a ++ String c "" = b ++ String d "" -> c = d.
Proof.
  induction a as [|x a IH]; intros [|y b] c d E; cbn [String.append] in E.
  - now injection E.
  - destruct b; discriminate.
  - destruct a; discriminate.
  - injection E as _ E. now apply IH in E.
Qed.
Lemma suffix_differs : forall t a b c d, c <> d -> a ++ String c t <> b ++ String d t.
Proof.
  intros t a b c d N E. apply N. change (String c t) with (String c "" ++ t) in E. change (String d t) with (String d "" ++ t) in E.
  rewrite <- !app_assoc in E. apply app_tail_inj in E. now apply last_differs in E.
Qed.
End Monitors.

Lemma define_obj : forall x v, all_chars is_idchar x = true -> fst (pp_define (x ++ " (" ++ v)) = x.
Proof. intros x v I. unfold pp_define. rewrite span_ident; [reflexivity|exact I|reflexivity]. Qed.
Lemma define_hook : forall g nm f, all_chars is_idchar nm = true -> all_chars is_idchar (n_drv g) = true -> is_ident f = true ->
  pp_define (hook_def g nm f) = ("FMon_" ++ nm ++ "_" ++ n_drv g, hook_macro f).
Proof.
  intros g nm f N D F. unfold hook_def.
  replace ("FMon_" ++ nm ++ "_" ++ n_drv g ++ "(x, y) " ++ f ++ "((x), (y))") with (("FMon_" ++ nm ++ "_" ++ n_drv g) ++ ("(x, y) " ++ f ++ "((x), (y))")) by (rewrite ?app_assoc; reflexivity).
  unfold pp_define. rewrite span_ident; [|rewrite !all_chars_app, N, D; reflexivity|reflexivity].
  cbn [String.append]. unfold pp_params. cbn [span Ascii.eqb Bool.eqb negb]. unfold hook_macro. f_equal. f_equal.
  change (String " " (f ++ "((x), (y))")) with (" " ++ (f ++ ("((x), (y))" ++ ""))).
  unfold lex. lexrun ltac:(rewrite lex_ident' by auto). reflexivity.
Qed.

Lemma proto_toks : forall f, is_ident f = true -> lex (proto_line f) = (hook_head f ++ [TP PSemi])%list.
Proof.
  intros f F. unfold proto_line. change ("void " ++ f ++ "(FrameMonitor_t* _mon, uint32_t msgid);") with ("void " ++ (f ++ ("(FrameMonitor_t* _mon, uint32_t msgid);" ++ ""))).
  unfold lex. lexrun ltac:(rewrite lex_ident' by auto). reflexivity.
Qed.

Section Header.
Variables (g : gendesc) (ci di : string) (names : list string).
Hypothesis FO : files_ok g ci di.
Hypothesis NM : forall nm, In nm names -> is_ident nm = true /\ (String.length nm <= 1000)%nat.

Lemma ver_names : forall M, exists a b, ver_defs g M = ("VER_" ++ n_DRV g ++ "_MIN_FMON", a) :: ("VER_" ++ n_DRV g ++ "_MAJ_FMON", b) :: M.
Proof.
  intros M. destruct (fo_eqs _ _ _ FO) as (E1 & E2 & E3). destruct (fDRV _ _ _ FO) as [D1 D2]. apply ident_chars in D1.
  assert (F : forall x z, all_chars is_idchar x = true -> fst (pp_define (x ++ "_FMON (" ++ pu z ++ "U)")) = x ++ "_FMON").
  { intros x z X. replace (x ++ "_FMON (" ++ pu z ++ "U)") with ((x ++ "_FMON") ++ " (" ++ (pu z ++ "U)")) by (rewrite ?app_assoc; reflexivity).
    apply define_obj. rewrite all_chars_app, X. reflexivity. }
  unfold ver_defs. rewrite E1, E2.
  assert (I1 : all_chars is_idchar ("VER_" ++ n_DRV g ++ "_MAJ") = true) by (rewrite !all_chars_app, D1; reflexivity).
  assert (I2 : all_chars is_idchar ("VER_" ++ n_DRV g ++ "_MIN") = true) by (rewrite !all_chars_app, D1; reflexivity).
  pose proof (F _ (n_hi g) I1) as F1. pose proof (F _ (n_low g) I2) as F2. rewrite !app_assoc in *.
  destruct (pp_define _) as [p a]. destruct (pp_define _) as [q b]. cbn [fst] in F1, F2. subst p q. exists b, a. reflexivity.
Qed.
Lemma ver_defined : forall M x, x <> "VER_" ++ n_DRV g ++ "_MIN_FMON" -> x <> "VER_" ++ n_DRV g ++ "_MAJ_FMON" -> lookup x (ver_defs g M) = lookup x M.
Proof.
  intros M x N1 N2. destruct (ver_names M) as (a & b & ->). cbn [lookup]. destruct (String.eqb_spec x ("VER_" ++ n_DRV g ++ "_MIN_FMON")) as [E|_]; [contradiction|].
  destruct (String.eqb_spec x ("VER_" ++ n_DRV g ++ "_MAJ_FMON")) as [E|_]; [contradiction|reflexivity].
Qed.
Lemma ver_mon : forall M, defined (n_usemon g) (ver_defs g M) = defined (n_usemon g) M.
Proof.
  intros M. unfold defined. rewrite ver_defined; auto; destruct (fo_eqs _ _ _ FO) as (_ & _ & ->); intros E;
  [apply (suffix_differs "" (n_DRV g ++ "_USE_DIAG_MONITOR") ("VER_" ++ n_DRV g ++ "_MIN_FMO") "S" "N")|apply (suffix_differs "" (n_DRV g ++ "_USE_DIAG_MONITOR") ("VER_" ++ n_DRV g ++ "_MAJ_FMO") "S" "N")]; try discriminate; rewrite !app_assoc; exact E.
Qed.
Lemma ver_mono : forall M, defined (usemono g) (ver_defs g M) = defined (usemono g) M.
Proof.
  intros M. unfold defined. rewrite ver_defined; auto; unfold usemono; intros E;
  [apply (suffix_differs "_FMON" (n_DRV g ++ "_USE_MON") ("VER_" ++ n_DRV g ++ "_MI") "O" "N")|apply (suffix_differs "_FMON" (n_DRV g ++ "_USE_MON") ("VER_" ++ n_DRV g ++ "_MA") "O" "J")]; try discriminate; rewrite !app_assoc; exact E.
Qed.
Lemma targets : forall M nm, In nm names -> is_ident (target g M nm) = true.
Proof.
  intros M nm I. destruct (fdrv _ _ _ FO) as [D _]. apply ident_chars in D. destruct (NM nm I) as [A _]. apply ident_chars in A. unfold target, mono_fun, own_fun. destruct (defined _ M).
  - apply (ident_prefix "_FMon_MONO_"); [reflexivity|exact D].
  - apply (ident_prefix "_FMon_"); [reflexivity|]. rewrite !all_chars_app, A, D. reflexivity.
Qed.
Lemma lookup_app : forall A x (a b : list (string * A)), lookup x (a ++ b) = match lookup x a with Some v => Some v | None => lookup x b end.
Proof. induction a as [|[y v] a IH]; intros b; [reflexivity|]. cbn [List.app lookup]. destruct (String.eqb x y); auto. Qed.
Lemma lookup_all : forall A x (v : A) l, (forall w, In (x, w) l -> w = v) -> In x (map fst l) -> lookup x l = Some v.
Proof.
  induction l as [|[y w] l IH]; intros H I; [contradiction|]. cbn [lookup]. destruct (String.eqb_spec x y) as [<-|N].
  - f_equal. apply H. now left.
  - cbn [map fst] in I. destruct I as [E|I]; [now symmetry in E|]. apply IH; auto. intros; apply H; now right.
Qed.
Lemma lookup_none : forall A x (l : list (string * A)), ~ In x (map fst l) -> lookup x l = None.
Proof.
  induction l as [|[y w] l IH]; intros H; [reflexivity|]. cbn [lookup]. destruct (String.eqb_spec x y) as [<-|N]; [contradiction H; now left|].
  apply IH. intros I. apply H. now right.
Qed.

Definition hooks (M : mtable) : mtable := rev (map pp_define (map (fun nm => hook_def g nm (target g M nm)) names)).
Lemma hooks_in : forall M p, In p (hooks M) <-> exists nm, In nm names /\ p = ("FMon_" ++ nm ++ "_" ++ n_drv g, hook_macro (target g M nm)).
Proof.
  intros M p. unfold hooks. rewrite <- in_rev, map_map, in_map_iff. destruct (fdrv _ _ _ FO) as [D _]. apply ident_chars in D.
  split.
  - intros (nm & <- & I). exists nm. split; auto. apply define_hook; auto; [apply ident_chars; now apply NM|now apply targets].
  - intros (nm & I & ->). exists nm. split; auto. apply define_hook; auto; [apply ident_chars; now apply NM|now apply targets].
Qed.
Lemma hooks_find : forall M nm, In nm names -> lookup ("FMon_" ++ nm ++ "_" ++ n_drv g) (hooks M) = Some (hook_macro (target g M nm)).
Proof.
  intros M nm I. apply lookup_all.
  - intros w W. apply hooks_in in W as (nm' & I' & E). injection E as E ->. apply app_tail_inj in E. now subst.
  - apply in_map_iff. exists ("FMon_" ++ nm ++ "_" ++ n_drv g, hook_macro (target g M nm)). split; auto. apply hooks_in. now exists nm.
Qed.
Lemma hooks_other : forall M x, (forall nm, In nm names -> x <> "FMon_" ++ nm ++ "_" ++ n_drv g) -> lookup x (hooks M) = None.
Proof.
  intros M x N. apply lookup_none. intros I. apply in_map_iff in I as ([y w] & <- & I). apply hooks_in in I as (nm & I & E). injection E as E _. cbn [fst] in N. now apply (N nm I).
Qed.

(** the tokens of the header for a C compiler *)
Definition functions (M : mtable) : list string :=
  if defined (n_usemon g) M then if defined (usemono g) M then [mono_fun g] else map (own_fun g) names else [].
Lemma monh_toks : forall M pre, List.concat (map lex pre) = [] -> lookup "__cplusplus" M = None ->
  toks M (monh_items g pre names) = flat_map (fun f => hook_head f ++ [TP PSemi])%list (functions M).
Proof.
  intros M pre P C. destruct (fdrv _ _ _ FO) as [D _]. apply ident_chars in D.
  assert (C0 : defined "__cplusplus" M = false) by (unfold defined; now rewrite C).
  assert (IM : is_ident (mono_fun g) = true) by (apply (ident_prefix "_FMon_MONO_"); [reflexivity|exact D]).
  assert (C1 : lookup "__cplusplus" (ver_defs g M) = None) by (rewrite ver_defined; auto; discriminate).
  unfold monh_items. rewrite toks_clist, P, toks_skip, toks_clist, toks_cond, cplusplus_macs, C0. rewrite ?xorb_false_l.
  rewrite toks_clist, !toks_def, toks_clist, toks_skip, toks_clist. fold (ver_defs g M).
  rewrite toks_cond, toks_clist, toks_cond. rewrite ?xorb_false_l.
  assert (C2 : defined "__cplusplus" (macs (ver_defs g M) (if defined (n_usemon g) (ver_defs g M) then monh_inner g names else INil)) = false).
  { unfold defined at 1. destruct (defined (n_usemon g) (ver_defs g M)); [|cbn [macs act fst]; now rewrite C1].
    unfold monh_inner. rewrite macs_clist, macs_skip, macs_clist, macs_cond, macs_clist. rewrite ?xorb_false_l.
    replace (macs _ INil) with (hooks (ver_defs g M) ++ ver_defs g M)%list.
    - rewrite lookup_app, hooks_other, C1; auto. intros nm _. discriminate.
    - unfold hooks, target. destruct (defined (usemono g) (ver_defs g M)); rewrite ?macs_clist, macs_deflist, macs_clist; reflexivity. }
  rewrite C2. cbn [List.concat map List.app]. change (List.concat (map lex [""])) with (@nil tok). change (lex "") with (@nil tok). cbn [List.app].
  unfold functions. rewrite ver_mon. change (toks ?X INil) with (@nil tok). destruct (defined (n_usemon g) M); [|reflexivity].
  unfold monh_inner. rewrite toks_clist, toks_skip, toks_clist, toks_cond, ver_mono. rewrite ?xorb_false_l. destruct (defined (usemono g) M).
  - rewrite toks_clist, toks_deflist, !toks_clist. cbn [map List.concat flat_map]. rewrite proto_toks by exact IM. reflexivity.
  - rewrite !toks_clist, toks_deflist, !toks_clist. change (toks ?X INil) with (@nil tok). change (List.concat (map lex [""])) with (@nil tok).
    change (List.concat (map lex [" "; ""])) with (@nil tok). cbn [List.app]. rewrite !List.app_nil_r.
    assert (H : forall l, (forall nm, In nm l -> In nm names) -> List.concat (map lex (map (fun nm => proto_line (own_fun g nm)) l)) = flat_map (fun f => hook_head f ++ [TP PSemi])%list (map (own_fun g) l)).
    { induction l as [|nm l IH]; intros S; [reflexivity|]. cbn [map List.concat flat_map]. rewrite IH by (intros; apply S; now right). f_equal. apply proto_toks.
      destruct (NM nm (S nm (or_introl eq_refl))) as [A _]. apply ident_chars in A. unfold own_fun. apply (ident_prefix "_FMon_"); [reflexivity|]. rewrite !all_chars_app, A, D. reflexivity. }
    apply H. auto.
Qed.
End Header.

(** ** The source *)

Definition stub_head (f : string) : string := "void " ++ f ++ "(FrameMonitor_t* _mon, uint32_t msgid)".
Definition stub_rest : list string := ["{"; "  (void)_mon;"; "  (void)msgid;"; "}"; ""].
Definition stub (f : string) : list string := stub_head f :: stub_rest.
Definition monc_items (g : gendesc) (fmonh : string) (pre : list string) (names : list string) : items :=
  clist pre (ISkip ("#include " ++ dq ++ fmonh ++ dq) (clist [""] (ICond false (n_usemon g)
    (clist [""; " "; ""] (ICond false (usemono g)
       (clist [""] (clist (stub (mono_fun g)) INil)) true
       (clist [""] (clist (flat_map (fun nm => stub (own_fun g nm)) names) INil)) " "
       (clist [""] INil))) false INil " " INil))).

Definition stub_text (f : string) : string := stub_head f ++ nl ++ "{" ++ nl ++ "  (void)_mon;" ++ nl ++ "  (void)msgid;" ++ nl ++ "}" ++ nl ++ nl.
Lemma stub_L : forall f, all_chars is_idchar f = true -> (String.length f <= 3000)%nat -> L (stub_text f) = stub_text f.
Proof.
  intros f I LN. unfold L. rewrite print_loc_short by (unfold stub_text, stub_head; rewrite !app_len; cbn [String.length nl]; lia).
  unfold append_s, stub_text. rewrite last_char_app by discriminate. reflexivity.
Qed.
Lemma stub_becomes : forall f, all_chars is_idchar f = true -> (String.length f <= 3000)%nat -> becomes (L (stub_text f)) (stub_text f).
Proof.
  intros f I LN. rewrite stub_L by auto. split.
  - apply uemit_quiet. unfold stub_text, stub_head. rewrite !all_chars_app, (id_quiet f I). reflexivity.
  - right. exists (stub_head f ++ nl ++ "{" ++ nl ++ "  (void)_mon;" ++ nl ++ "  (void)msgid;" ++ nl ++ "}" ++ nl). unfold stub_text. now rewrite !app_assoc.
Qed.
Lemma stub_lines : forall f, all_chars is_idchar f = true -> lines (stub_text f) = stub f.
Proof.
  intros f I. unfold stub_text, stub. unfold nl at 1. cbn [String.append]. rewrite lines_line; [reflexivity|].
  unfold stub_head. pose proof (no_nl_ident f I) as N. nonls.
Qed.

Section Source.
Variables (g : gendesc) (ci di : string) (names : list string).
Hypothesis FO : files_ok g ci di.
Hypothesis NM : forall nm, In nm names -> is_ident nm = true /\ (String.length nm <= 1000)%nat.

Definition monc_strip (fmonh : string) : list string :=
  ([ci; di; L ("#include " ++ dq ++ fmonh ++ dq); nls 1; L ("#ifdef " ++ n_usemon g); nls 1; (" " ++ nl ++ nl)%string;
    L ("#ifdef " ++ usemono g); nls 1; L (stub_head (mono_fun g)); L "{"; L "  (void)_mon;"; L "  (void)msgid;"; L "}"; nls 1; L "#else"; nls 1]
   ++ map (fun nm => stub_text (own_fun g nm)) names ++ [L "#endif "; nls 1; L "#endif "])%list.

Lemma own_short : forall nm, In nm names -> all_chars is_idchar (own_fun g nm) = true /\ (String.length (own_fun g nm) <= 3000)%nat.
Proof.
  intros nm I. destruct (NM nm I) as [A B]. apply ident_chars in A. destruct (fdrv _ _ _ FO) as [D1 D2]. apply ident_chars in D1. unfold own_fun.
  rewrite !all_chars_app, A, D1. split; [reflexivity|]. rewrite !app_len. cbn [String.length]. lia.
Qed.
Ltac lcase := first [apply becomes_const; [vm_compute; reflexivity|first [apply L_full|apply nls_full|right; now exists (" " ++ nl)]]
  | apply becomes_L; [allq|unfold dq; raw]].
Lemma monc_becomes : forall fmonh xs, fmonh = n_drv g ++ "-fmon.h" -> map (fun x => g_name (x_msg x)) xs = names -> Forall2 becomes (fmon_source g fmonh xs) (monc_strip fmonh).
Proof.
  intros fmonh xs EF EN. destruct (fdrv _ _ _ FO) as [D1 D2], (fDRV _ _ _ FO) as [E1 E2], (fmono _ _ _ FO) as [O1 O2], (fmon _ _ _ FO) as [U1 U2].
  pose proof (ident_chars _ D1) as D1'. pose proof (ident_chars _ E1) as E1'. pose proof (ident_chars _ O1) as O1'. pose proof (ident_chars _ U1) as U1'.
  pose proof (no_nl_ident' _ D1) as ND. pose proof (no_nl_ident' _ O1) as NO. pose proof (no_nl_ident' _ U1) as NU.
  unfold fmon_source, monc_strip. apply Forall2_app; [|apply Forall2_app].
  - constructor; [apply (fo_com _ _ _ FO)|]. constructor; [apply (fo_drv _ _ _ FO)|].
    constructor. { subst fmonh. rewrite !app_assoc. apply (becomes_include (n_drv g) "-fmon.h"); auto; cbn [String.length]; lia. }
    constructor; [lcase|]. constructor; [lcase|]. constructor; [lcase|]. constructor; [lcase|]. constructor; [fold (usemono g); lcase|].
    constructor; [lcase|]. constructor; [unfold stub_head, mono_fun; apply becomes_L; [allq|raw]|].
    repeat (constructor; [lcase|]). constructor.
  - assert (OS : forall x, In x xs -> all_chars is_idchar (own_fun g (g_name (x_msg x))) = true /\ (String.length (own_fun g (g_name (x_msg x))) <= 3000)%nat).
    { intros x I. apply own_short. rewrite <- EN. apply in_map_iff. eauto. }
    rewrite <- EN, map_map. clear - OS. induction xs as [|x xs IH]; constructor.
    + destruct (OS x (or_introl eq_refl)) as [A B].
      replace ("void _FMon_" ++ _) with (stub_text (own_fun g (g_name (x_msg x)))); [now apply stub_becomes|]. unfold stub_text, stub_head, own_fun. rewrite !app_assoc. reflexivity.
    + apply IH. intros y I. apply OS. now right.
  - constructor; [fold (usemono g); apply becomes_endif; auto|]. constructor; [lcase|]. constructor; [now apply becomes_endif|constructor].
Qed.
Lemma monc_text : forall fmonh, fmonh = n_drv g ++ "-fmon.h" -> plines (monc_strip fmonh) = flat (monc_items g fmonh (lines ci ++ lines di)%list names).
Proof.
  intros fmonh EF. destruct (fdrv _ _ _ FO) as [D1 D2], (fDRV _ _ _ FO) as [E1 E2], (fmono _ _ _ FO) as [O1 O2], (fmon _ _ _ FO) as [U1 U2].
  pose proof (no_nl_ident' _ D1) as ND. pose proof (no_nl_ident' _ O1) as NO. pose proof (no_nl_ident' _ U1) as NU.
  unfold monc_strip. rewrite !plines_app.
  assert (P : plines (map (fun nm => stub_text (own_fun g nm)) names) = flat_map (fun nm => stub (own_fun g nm)) names).
  { pose proof own_short as OS. clear NM. unfold plines. induction names as [|nm l IH]; [reflexivity|]. cbn [map flat_map]. rewrite IH by (intros; apply OS; now right).
    rewrite stub_lines; [reflexivity|]. apply OS. now left. }
  rewrite P. unfold plines. cbn [flat_map].
  rewrite (lines_L ("#include " ++ dq ++ fmonh ++ dq)) by (subst fmonh; unfold dq; raw).
  rewrite (lines_L ("#ifdef " ++ n_usemon g)) by raw.
  rewrite (lines_L ("#ifdef " ++ usemono g)) by raw.
  rewrite (lines_L (stub_head (mono_fun g))) by (unfold stub_head, mono_fun; raw).
  change (lines (" " ++ nl ++ nl)) with [" "; ""]. replace (lines (L "#endif ")) with ["#endif "] by (vm_compute; reflexivity). litlines.
  unfold monc_items, stub, stub_rest. repeat (rewrite ?flat_clist; cbn [flat]).
  do 4 (cbn [List.app]; rewrite ?List.app_nil_r, <- ?List.app_assoc). cbn [List.app]. reflexivity.
Qed.
Lemma stub_plain : forall f, Forall (fun s => directive s = None) (stub f).
Proof. intros f. unfold stub, stub_head. constructor; [apply (dir_cons "v"); discriminate|]. repeat constructor. Qed.
Lemma monc_wf : forall fmonh, iwf (monc_items g fmonh (lines ci ++ lines di)%list names).
Proof.
  intros fmonh. destruct (fmono _ _ _ FO) as [O1 O2], (fmon _ _ _ FO) as [U1 U2].
  destruct (blank_plain ci (proj2 (fo_com _ _ _ FO))) as [B1 _]. destruct (blank_plain di (proj2 (fo_drv _ _ _ FO))) as [B2 _].
  unfold monc_items. apply iwf_clist; [now apply Forall_app|]. cbn [iwf]. split; [apply skip_include|]. apply iwf_clist; [repeat constructor|]. cbn [iwf].
  split; [exact U1|]. split; [|split; [exact Logic.I|split; [reflexivity|split; [right; now exists ""|exact Logic.I]]]].
  apply iwf_clist; [repeat constructor|]. cbn [iwf]. split; [exact O1|]. split; [|split; [|split; [discriminate|split; [right; now exists ""|apply iwf_clist; [repeat constructor|exact Logic.I]]]]].
  - apply iwf_clist; [repeat constructor|]. apply iwf_clist; [apply stub_plain|exact Logic.I].
  - apply iwf_clist; [repeat constructor|]. apply iwf_clist; [|exact Logic.I]. induction names; [constructor|]. cbn [flat_map]. apply Forall_app. split; [apply stub_plain|]. apply IHl. intros; apply NM. now right.
Qed.

Definition stub_body : list tok := lex "  (void)_mon;" ++ lex "  (void)msgid;".
Lemma stub_toks : forall f, is_ident f = true -> List.concat (map lex (stub f)) = (hook_head f ++ TP PLbrace :: stub_body ++ [TP PRbrace])%list.
Proof.
  intros f F. unfold stub, stub_rest. cbn [map List.concat].
  replace (lex (stub_head f)) with (hook_head f); [reflexivity|]. unfold stub_head. change ("void " ++ f ++ "(FrameMonitor_t* _mon, uint32_t msgid)") with ("void " ++ (f ++ ("(FrameMonitor_t* _mon, uint32_t msgid)" ++ ""))).
  unfold lex. lexrun ltac:(rewrite lex_ident' by auto). reflexivity.
Qed.
Definition stub_def (f : string) : fundef := {| fd_head := hook_head f; fd_body := stub_body |}.
Lemma stub_idle : forall f, idle_fun f (stub_def f).
Proof. intros. split; [reflexivity|]. vm_compute. reflexivity. Qed.
Lemma stubs_fold : forall fs o, Forall (fun f => is_ident f = true) fs ->
  fold_left fstep (List.concat (map lex (flat_map stub fs))) (fs0 o) = fs0 (rev (map stub_def fs) ++ o).
Proof.
  induction fs as [|f fs IH]; intros o F; [reflexivity|]. inversion F; subst. cbn [flat_map]. rewrite map_app, concat_app, fold_left_app.
  rewrite stub_toks by auto. rewrite fold_def; [|reflexivity|intros; reflexivity]. rewrite IH by auto. cbn [map rev]. rewrite <- List.app_assoc. reflexivity.
Qed.
Lemma monc_toks : forall M fmonh pre, List.concat (map lex pre) = [] ->
  toks M (monc_items g fmonh pre names) = List.concat (map lex (flat_map stub (functions g names M))) /\ macs M (monc_items g fmonh pre names) = M.
Proof.
  intros M fmonh pre P. unfold monc_items, functions. split.
  - rewrite toks_clist, P, toks_skip, toks_clist, toks_cond. rewrite ?xorb_false_l. change (toks ?X INil) with (@nil tok). change (List.concat (map lex [""])) with (@nil tok).
    cbn [List.app]. rewrite List.app_nil_r. destruct (defined (n_usemon g) M); [|reflexivity].
    rewrite toks_clist, toks_cond, toks_clist. rewrite ?xorb_false_l. change (toks ?X INil) with (@nil tok). change (List.concat (map lex [""])) with (@nil tok). change (List.concat (map lex [""; " "; ""])) with (@nil tok).
    cbn [List.app]. rewrite List.app_nil_r. destruct (defined (usemono g) M); rewrite !toks_clist; change (toks ?X INil) with (@nil tok); rewrite List.app_nil_r.
    + cbn [flat_map]. rewrite List.app_nil_r. reflexivity.
    + change (List.concat (map lex [""])) with (@nil tok). cbn [List.app]. f_equal. f_equal. clear NM. induction names; [reflexivity|]. cbn [map flat_map]. now rewrite IHl.
  - rewrite macs_clist, macs_skip, macs_clist, macs_cond. rewrite ?xorb_false_l. destruct (defined (n_usemon g) M); [|reflexivity].
    change (macs ?X INil) with X. rewrite macs_clist, macs_cond, macs_clist. change (macs ?X INil) with X. destruct (xorb _ _); rewrite !macs_clist; reflexivity.
Qed.
End Source.
