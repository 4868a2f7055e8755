(** The emitted source file as a translation unit: which functions it defines and what their
    bodies parse to. *)

From Coq Require Import ZArith NArith List String Ascii Bool Lia ZifyBool.
From Verif Require Import Base Dbl CSyntax CSem CRun Types Formatter SigPrinter Writer Settings
  MainGen CodecSpec MsgSpec LexLemmas BitLemmas CSemLemmas Chunks UnpackProof PPProof BodyLemmas
  UnpackBody UnpackFun PackProof PackBody PackFun.
Import ListNotations.
Open Scope string_scope.

(** ** Braces *)

Fixpoint blocks (k : list kframe) : nat :=
  match k with
  | [] => 0
  | KBlock _ :: r => S (blocks r)
  | _ :: r => blocks r
  end.

(** the parser never works outside of the outermost block *)
Definition is_block (f : kframe) : bool := match f with KBlock _ => true | _ => false end.
Fixpoint based (k : list kframe) : bool :=
  match k with
  | [] => false
  | f :: r => match r with [] => is_block f | _ => based r end
  end.
Lemma based_cons : forall f k, based k = true -> based (f :: k) = true.
Proof. intros f [|g k] H; [discriminate|exact H]. Qed.
Lemma based_tail : forall f k, based (f :: k) = true -> is_block f = false -> based k = true.
Proof. intros f [|g k] H N; [cbn in H; congruence|exact H]. Qed.
Lemma based_change : forall f f' k, based (f :: k) = true -> is_block f' = true -> based (f' :: k) = true.
Proof. intros f f' [|g k] H N; auto. Qed.
Lemma based_blocks : forall k, based k = true -> (1 <= blocks k)%nat.
Proof.
  induction k as [|f [|g k] IH]; intros H; [discriminate| |].
  - destruct f; try discriminate. cbn. lia.
  - specialize (IH H). destruct f; cbn [blocks] in *; lia.
Qed.

Lemma complete_based : forall k s k' m, complete s k = Some (k', m) -> based k = true -> based k' = true.
Proof.
  induction k as [|f k IH]; intros s k' m H B; [discriminate|].
  destruct f; cbn [complete] in H.
  - injection H as <- <-. eapply based_change; eauto.
  - injection H as <- <-. eapply based_tail; eauto.
  - eapply IH; eauto. eapply based_tail; eauto.
  - eapply IH; eauto. eapply based_tail; eauto.
Qed.
Lemma flush_based : forall k s k', flush_if s k = Some k' -> based k = true -> based k' = true.
Proof.
  induction k as [|f k IH]; intros s k' H B; [discriminate|].
  destruct f; cbn [flush_if] in H.
  - injection H as <-. eapply based_change; eauto.
  - eapply IH; eauto. eapply based_tail; eauto.
  - eapply IH; eauto. eapply based_tail; eauto.
  - eapply IH; eauto. eapply based_tail; eauto.
Qed.
Lemma sstart_based : forall k t k' m, sstart k t = Some (k', m) -> based k = true -> based k' = true.
Proof.
  intros k t k' m H B. unfold sstart in H.
  assert (E : forall kd, match estep ([], Need) t with Some es => Some (k, MExpr kd es) | None => None end
              = Some (k', m) -> based k' = true).
  { intros kd X. destruct (estep ([], Need) t) eqn:S; [|discriminate]. now injection X as <- <-. }
  destruct t as [x|ty z|f|p|]; try (eapply E; eassumption).
  - destruct (x =? "return")%string; [now injection H as <- <-|].
    destruct (x =? "if")%string; [now injection H as <- <-|].
    destruct (x =? "for")%string; [now injection H as <- <-|].
    destruct (is_typename x); [now injection H as <- <-|]. eapply E; eassumption.
  - destruct p; try (eapply E; eassumption).
    + injection H as <- <-. now apply based_cons.
    + destruct k as [|[] k]; try discriminate. destruct k as [|g k]; [discriminate|].
      eapply complete_based; eauto.
    + eapply complete_based; eauto.
Qed.
Lemma sstep_based : forall k m t k' m', sstep (k, m) t = Some (k', m') -> based k = true -> based k' = true.
Proof.
  intros k m t k' m' H B. unfold sstep in H. destruct m.
  - eapply sstart_based; eauto.
  - destruct x as [x|].
    + destruct t as [y|ty' z|f|p|]; try discriminate. destruct p as [| | | | | | | | | | | | | | |o]; try discriminate.
      * eapply complete_based; eauto.
      * destruct o; try discriminate. now injection H as <- <-.
    + destruct t as [y|ty' z|f|p|]; try discriminate.
      destruct (y =? "const")%string; now injection H as <- <-.
  - destruct t as [y|ty' z|f|p|]; try discriminate. destruct p; try discriminate. now injection H as <- <-.
  - destruct t as [y|ty' z|f|p|]; try discriminate. destruct p; try discriminate. now injection H as <- <-.
  - assert (E : match estep s t with
                | None => None
                | Some ([], Have e) =>
                    match kind with
                    | XIf => Some (KIf e :: k, MStmt)
                    | XFor3 a b => Some (KFor a b e :: k, MStmt)
                    | _ => Some (k, MExpr kind ([], Have e))
                    end
                | Some es' => Some (k, MExpr kind es')
                end = Some (k', m') -> based k' = true).
    { intros X. destruct (estep s t) as [[[|? ?] []]|] eqn:S; try discriminate;
        try (now injection X as <- <-).
      destruct kind; injection X as <- <-; auto using based_cons. }
    destruct t as [y|ty' z|f|p|]; try (apply E; exact H).
    destruct p; try (apply E; exact H). clear E.
    destruct (efinish s) as [e|]; [|discriminate].
    destruct kind; try discriminate; try solve [eapply complete_based; eauto]; now injection H as <- <-.
  - assert (E : match flush_if (SIf c s1 None) k with Some q => sstart q t | None => None end = Some (k', m') ->
                based k' = true).
    { intros X. destruct (flush_if (SIf c s1 None) k) eqn:F; [|discriminate].
      eapply sstart_based; eauto. eapply flush_based; eauto. }
    destruct t as [y|ty' z|f|p|]; try (apply E; exact H).
    destruct (y =? "else")%string; [injection H as <- <-; now apply based_cons|apply E; exact H].
Qed.

Lemma complete_blocks : forall k s k' m, complete s k = Some (k', m) -> blocks k' = blocks k.
Proof.
  induction k as [|f k IH]; intros s k' m H; [discriminate|].
  destruct f; cbn [complete] in H; try (injection H as <- <-; reflexivity); eapply IH; eauto.
Qed.
Lemma flush_blocks : forall k s k', flush_if s k = Some k' -> blocks k' = blocks k /\ (1 <= blocks k)%nat.
Proof.
  induction k as [|f k IH]; intros s k' H; [discriminate|].
  destruct f; cbn [flush_if] in H; try (injection H as <-; cbn [blocks]; lia);
    apply IH in H; cbn [blocks]; lia.
Qed.

Definition brace (t : tok) : Z :=
  match t with TP PLbrace => 1 | TP PRbrace => -1 | _ => 0 end%Z.

Lemma estep_brace : forall s t s', estep s t = Some s' -> brace t = 0%Z.
Proof.
  intros [k m] t s' H. destruct t as [x|ty z|f|p|]; try reflexivity.
  destruct p; try reflexivity; destruct m; try discriminate; destruct k; discriminate.
Qed.

Lemma sstart_blocks : forall k t k' m, sstart k t = Some (k', m) ->
  Z.of_nat (blocks k') = (Z.of_nat (blocks k) + brace t)%Z.
Proof.
  intros k t k' m H. unfold sstart in H.
  assert (E : forall kd, match estep ([], Need) t with Some es => Some (k, MExpr kd es) | None => None end
              = Some (k', m) -> Z.of_nat (blocks k') = (Z.of_nat (blocks k) + brace t)%Z).
  { intros kd X. destruct (estep ([], Need) t) eqn:S; [|discriminate]. injection X as <- <-.
    rewrite (estep_brace _ _ _ S). lia. }
  destruct t as [x|ty z|f|p|]; try (eapply E; eassumption).
  - destruct (x =? "return")%string; [injection H as <- <-; cbn; lia|].
    destruct (x =? "if")%string; [injection H as <- <-; cbn; lia|].
    destruct (x =? "for")%string; [injection H as <- <-; cbn; lia|].
    destruct (is_typename x); [injection H as <- <-; cbn; lia|]. eapply E; eassumption.
  - destruct p; try (eapply E; eassumption).
    + injection H as <- <-. cbn [blocks brace]. lia.
    + destruct k as [|[] k]; try discriminate. apply complete_blocks in H. cbn [blocks brace]. lia.
    + apply complete_blocks in H. cbn [brace]. lia.
Qed.

Lemma sstep_blocks : forall k m t k' m', sstep (k, m) t = Some (k', m') ->
  Z.of_nat (blocks k') = (Z.of_nat (blocks k) + brace t)%Z.
Proof.
  intros k m t k' m' H. unfold sstep in H. destruct m.
  - eapply sstart_blocks; eauto.
  - destruct x as [x|].
    + destruct t as [y|ty' z|f|p|]; try discriminate. destruct p as [| | | | | | | | | | | | | | |o]; try discriminate.
      * apply complete_blocks in H. cbn [brace]. lia.
      * destruct o; try discriminate. injection H as <- <-. cbn [brace]. lia.
    + destruct t as [y|ty' z|f|p|]; try discriminate.
      destruct (y =? "const")%string; injection H as <- <-; cbn [brace]; lia.
  - destruct t as [y|ty' z|f|p|]; try discriminate. destruct p; try discriminate.
    injection H as <- <-. cbn [brace]. lia.
  - destruct t as [y|ty' z|f|p|]; try discriminate. destruct p; try discriminate.
    injection H as <- <-. cbn [brace]. lia.
  - assert (E : match estep s t with
                | None => None
                | Some ([], Have e) =>
                    match kind with
                    | XIf => Some (KIf e :: k, MStmt)
                    | XFor3 a b => Some (KFor a b e :: k, MStmt)
                    | _ => Some (k, MExpr kind ([], Have e))
                    end
                | Some es' => Some (k, MExpr kind es')
                end = Some (k', m') ->
                Z.of_nat (blocks k') = (Z.of_nat (blocks k) + brace t)%Z).
    { intros X. destruct (estep s t) as [[[|? ?] []]|] eqn:S; try discriminate;
        rewrite (estep_brace _ _ _ S); try (injection X as <- <-; cbn [blocks]; lia).
      destruct kind; injection X as <- <-; cbn [blocks]; lia. }
    destruct t as [y|ty' z|f|p|]; try (apply E; exact H).
    destruct p; try (apply E; exact H). clear E.
    destruct (efinish s) as [e|]; [|discriminate].
    destruct kind; try discriminate; try (apply complete_blocks in H; cbn [brace]; lia);
      injection H as <- <-; cbn [brace]; lia.
  - assert (E : match flush_if (SIf c s1 None) k with Some q => sstart q t | None => None end = Some (k', m') ->
                Z.of_nat (blocks k') = (Z.of_nat (blocks k) + brace t)%Z).
    { intros X. destruct (flush_if (SIf c s1 None) k) eqn:F; [|discriminate].
      apply flush_blocks in F. apply sstart_blocks in X. lia. }
    destruct t as [y|ty' z|f|p|]; try (apply E; exact H).
    destruct (y =? "else")%string; [injection H as <- <-; cbn [blocks brace]; lia|apply E; exact H].
Qed.

Lemma fstep_in : forall t d d' h b o, (1 <= d)%nat -> (1 <= d')%nat ->
  Z.of_nat d' = (Z.of_nat d + brace t)%Z ->
  fstep {| fs_depth := d; fs_head := h; fs_body := b; fs_out := o |} t
  = {| fs_depth := d'; fs_head := h; fs_body := t :: b; fs_out := o |}.
Proof.
  intros t d d' h b o D D' E. destruct d as [|d]; [lia|]. unfold fstep. cbn [fs_depth fs_head fs_body fs_out].
  assert (X : brace t = 0%Z -> d' = S d) by lia.
  destruct t as [y|ty z|f|p|]; try (rewrite X by reflexivity; reflexivity).
  destruct p; try (rewrite X by reflexivity; reflexivity); cbn [brace] in E.
  - replace d' with (S (S d)) by lia. reflexivity.
  - destruct d as [|d]; [lia|]. replace d' with (S d) by lia. reflexivity.
Qed.

Lemma srun_braces : forall l k m k' m' h b o, srun (k, m) l = Some (k', m') -> based k = true ->
  fold_left fstep l {| fs_depth := blocks k; fs_head := h; fs_body := b; fs_out := o |}
  = {| fs_depth := blocks k'; fs_head := h; fs_body := (rev l ++ b)%list; fs_out := o |}.
Proof.
  induction l as [|t l IH]; intros k m k' m' h b o H B.
  - injection H as <- <-. reflexivity.
  - cbn [srun] in H. destruct (sstep (k, m) t) as [[k1 m1]|] eqn:S; [|discriminate].
    pose proof (sstep_based _ _ _ _ _ S B) as B1. cbn [fold_left].
    rewrite (fstep_in t (blocks k) (blocks k1)); auto using based_blocks.
    + rewrite (IH _ _ _ _ _ _ _ H B1). cbn [rev]. now rewrite <- List.app_assoc.
    + eapply sstep_blocks; eauto.
Qed.

(** tokens of the active lines *)
Definition toks (M : mtable) (i : items) : list tok := List.concat (map lex (snd (act M i))).

Lemma items_braces : forall i M h b o, istm i ->
  fold_left fstep (toks M i) {| fs_depth := 1; fs_head := h; fs_body := b; fs_out := o |}
  = {| fs_depth := 1; fs_head := h; fs_body := (rev (toks M i) ++ b)%list; fs_out := o |}.
Proof.
  intros i M h b o S. pose proof (srun_items i M [] [] S) as R.
  exact (srun_braces _ _ _ _ _ h b o R eq_refl).
Qed.

(** a complete definition *)
Definition plain_tok (t : tok) : bool :=
  match t with TP PLbrace | TP PRbrace | TP PSemi => false | _ => true end.

Lemma fold_head : forall l h o, forallb plain_tok l = true ->
  fold_left fstep l {| fs_depth := 0; fs_head := h; fs_body := []; fs_out := o |}
  = {| fs_depth := 0; fs_head := (rev l ++ h)%list; fs_body := []; fs_out := o |}.
Proof.
  induction l as [|t l IH]; intros h o P; [reflexivity|].
  cbn [forallb] in P. apply andb_true_iff in P. destruct P as [P1 P2]. cbn [fold_left].
  assert (E : fstep {| fs_depth := 0; fs_head := h; fs_body := []; fs_out := o |} t
             = {| fs_depth := 0; fs_head := t :: h; fs_body := []; fs_out := o |}).
  { destruct t as [y|ty z|f|p|]; try reflexivity. destruct p; try reflexivity; discriminate. }
  rewrite E, IH by auto. cbn [rev]. now rewrite <- List.app_assoc.
Qed.

Definition fs0 (o : list fundef) : fstate :=
  {| fs_depth := 0; fs_head := []; fs_body := []; fs_out := o |}.

Lemma fold_def : forall H B o, forallb plain_tok H = true ->
  (forall h o, fold_left fstep B {| fs_depth := 1; fs_head := h; fs_body := []; fs_out := o |}
     = {| fs_depth := 1; fs_head := h; fs_body := rev B; fs_out := o |}) ->
  fold_left fstep (H ++ TP PLbrace :: B ++ [TP PRbrace]) (fs0 o)
  = fs0 ({| fd_head := H; fd_body := B |} :: o).
Proof.
  intros H B o P BB. rewrite fold_left_app. unfold fs0. rewrite fold_head by auto.
  cbn [fold_left fstep fs_depth]. rewrite fold_left_app. unfold fstep at 2. cbn [fs_depth fs_head fs_out].
  rewrite BB. cbn [fold_left fstep fs_depth fs_head fs_body fs_out].
  now rewrite List.app_nil_r, !rev_involutive.
Qed.

(** ** Lines of pieces *)

Definition full (s : string) : Prop := s = "" \/ exists r, s = r ++ nl.

Lemma lines_aux_full : forall s racc r, lines_aux racc ((s ++ nl) ++ r) = (lines_aux racc (s ++ nl) ++ lines r)%list.
Proof.
  induction s as [|c s IH]; intros racc r.
  - unfold nl. cbn [String.append lines_aux]. change (Ascii.eqb NL NL) with true. reflexivity.
  - cbn [String.append lines_aux]. destruct (Ascii.eqb c NL); cbn [List.app]; now rewrite IH.
Qed.
Lemma lines_full : forall s r, full s -> lines (s ++ r) = (lines s ++ lines r)%list.
Proof. intros s r [->|[q ->]]; [reflexivity|apply lines_aux_full]. Qed.

Lemma append_s_full : forall s, full (append_s s).
Proof.
  intros s. right. unfold append_s. destruct (last_char s) as [c|] eqn:E; [|now exists ""].
  destruct (Ascii.eqb_spec c NL) as [->|N]; [|now exists s].
  revert E. induction s as [|d s IH]; intros E; [discriminate|]. cbn [last_char] in E.
  destruct s as [|d' s].
  - injection E as ->. exists "". reflexivity.
  - destruct (IH E) as [q Q]. exists (String d q). cbn [String.append]. now rewrite <- Q.
Qed.
Lemma L_full : forall s, full (L s).
Proof. intros. apply append_s_full. Qed.
Lemma nls_full : forall n, full (nls n).
Proof.
  intros [|n]; [now left|]. right. exists (repeat_char n NL). unfold nls.
  induction n; [reflexivity|]. cbn [repeat_char String.append] in *. now rewrite <- IHn.
Qed.

Definition plines (ps : list string) : list string := flat_map lines ps.

Lemma lines_pieces : forall ps, Forall full ps -> lines (sconcat ps) = plines ps.
Proof.
  induction ps as [|p ps IH]; intros F; [reflexivity|].
  inversion F; subst. cbn [sconcat plines flat_map]. rewrite lines_full, IH by auto. reflexivity.
Qed.
Lemma plines_app : forall a b, plines (a ++ b) = (plines a ++ plines b)%list.
Proof. intros. apply flat_map_app. Qed.

Lemma lines_L : forall s, raw_ok s -> lines (L s) = [s].
Proof. intros s R. rewrite L_raw by auto. unfold nl. rewrite lines_line by apply R. reflexivity. Qed.
Lemma plines_raws : forall l, Forall raw_ok l -> plines (map L l) = l.
Proof.
  induction l; intros F; [reflexivity|]. inversion F; subst. unfold plines in *. cbn [map flat_map].
  rewrite lines_L, IHl by auto. reflexivity.
Qed.
Lemma map_L_full : forall l, Forall full (map L l).
Proof. induction l; constructor; auto using L_full. Qed.

Lemma print_loc_short : forall s, (Z.of_nat (String.length s) < 10000)%Z -> print_loc s = s.
Proof.
  intros s H. unfold print_loc. apply cut_short. apply Nat2Z.inj_lt. exact H.
Qed.

(** a piece of two lines *)
Lemma lines_L2 : forall a b, no_nl a = true -> no_nl b = true -> b <> "" ->
  (Z.of_nat (String.length a) + Z.of_nat (String.length b) < 9000)%Z ->
  lines (L (a ++ nl ++ b)) = [a; b].
Proof.
  intros a b A B N H. unfold L. rewrite print_loc_short by (rewrite !app_len; cbn [String.length nl]; lia).
  unfold append_s. rewrite last_char_app by (destruct b; discriminate).
  rewrite last_char_app by auto.
  pose proof (last_char_nl b B N) as LC.
  destruct (last_char b); [|discriminate]. rewrite LC.
  rewrite !app_assoc. unfold nl. cbn [String.append]. rewrite lines_line by auto.
  change (b ++ String NL "") with (b ++ String NL ""). rewrite lines_line by auto. reflexivity.
Qed.

(** ** Comment lines *)

Definition is_comment (s : string) : Prop := exists r, s = "//" ++ r /\ no_nl r = true.

Lemma lex_in_comment : forall r, no_nl r = true -> lex_from LComment r = [].
Proof.
  induction r as [|c r IH]; intros N; [reflexivity|].
  unfold no_nl in *. cbn [has_char] in N. rewrite negb_orb in N. apply andb_true_iff in N. destruct N as [N1 N2].
  cbn [lex_from lstep]. replace (code c =? 10)%N with false; [cbn [List.app]; apply IH; exact N2|].
  symmetry. apply N.eqb_neq. intros E. apply negb_true_iff, Ascii.eqb_neq in N1. apply N1.
  unfold code in E. rewrite <- (ascii_N_embedding c), E. reflexivity.
Qed.
Lemma lex_comment : forall s, is_comment s -> lex s = [].
Proof. intros s (r & -> & N). unfold lex. cbn [String.append lex_from lstep]. exact (lex_in_comment r N). Qed.
Lemma directive_comment : forall s, is_comment s -> directive s = None.
Proof. intros s (r & -> & _). reflexivity. Qed.

Definition clist (ls : list string) (r : items) : items := fold_right (fun s r => ILine s [] r) r ls.
Lemma flat_clist : forall ls r, flat (clist ls r) = (ls ++ flat r)%list.
Proof. induction ls; intros; cbn [clist fold_right flat List.app]; auto. f_equal. apply IHls. Qed.
Lemma iwf_clist : forall ls r, Forall (fun s => directive s = None) ls -> iwf r -> iwf (clist ls r).
Proof. induction ls; intros r F W; [exact W|]. inversion F; subst. cbn [clist fold_right iwf]. split; auto. now apply IHls. Qed.

Definition macs (M : mtable) (i : items) : mtable := fst (act M i).

Lemma toks_line : forall M s ss r, toks M (ILine s ss r) = (lex s ++ toks M r)%list.
Proof. intros. unfold toks. cbn [act]. destruct (act M r). reflexivity. Qed.
Lemma toks_cond : forall M n x a e b t r, toks M (ICond n x a e b t r)
  = (toks M (if xorb n (defined x M) then a else b)
     ++ toks (macs M (if xorb n (defined x M) then a else b)) r)%list.
Proof.
  intros. unfold toks, macs. cbn [act]. destruct (act M (if xorb n (defined x M) then a else b)) as [M1 l1].
  cbn [fst snd]. destruct (act M1 r). cbn [snd]. now rewrite map_app, List.concat_app.
Qed.
Lemma macs_cond : forall M n x a e b t r, macs M (ICond n x a e b t r)
  = macs (macs M (if xorb n (defined x M) then a else b)) r.
Proof.
  intros. unfold macs. cbn [act]. destruct (act M (if xorb n (defined x M) then a else b)) as [M1 l1].
  cbn [fst snd]. destruct (act M1 r). reflexivity.
Qed.
Lemma macs_line : forall M s ss r, macs M (ILine s ss r) = macs M r.
Proof. intros. unfold macs. cbn [act]. destruct (act M r). reflexivity. Qed.
Lemma toks_clist : forall ls M r, toks M (clist ls r) = (List.concat (map lex ls) ++ toks M r)%list.
Proof.
  induction ls; intros; [reflexivity|]. cbn [clist fold_right map List.concat].
  rewrite toks_line, <- List.app_assoc. f_equal. apply IHls.
Qed.
Lemma macs_clist : forall ls M r, macs M (clist ls r) = macs M r.
Proof. induction ls; intros; [reflexivity|]. cbn [clist fold_right]. rewrite macs_line. apply IHls. Qed.
Lemma toks_iapp : forall a b M, toks M (iapp a b) = (toks M a ++ toks (macs M a) b)%list.
Proof. intros. unfold toks, macs. rewrite act_iapp. cbn [snd]. now rewrite map_app, List.concat_app. Qed.
Lemma macs_iapp : forall a b M, macs M (iapp a b) = macs (macs M a) b.
Proof. intros. unfold macs. now rewrite act_iapp. Qed.
Lemma lex_comments : forall ls, Forall is_comment ls -> List.concat (map lex ls) = [].
Proof.
  induction ls; intros F; [reflexivity|]. inversion F; subst. cbn [map List.concat].
  rewrite lex_comment, IHls by auto. reflexivity.
Qed.
Lemma comments_plain : forall ls, Forall is_comment ls -> Forall (fun s => directive s = None) ls.
Proof. intros ls F. eapply Forall_impl; [|exact F]. intros s. apply directive_comment. Qed.

(** ** The part before the functions *)

(** comment block at the top of every file *)
Definition info_ok (s : string) : Prop := full s /\ Forall is_comment (lines s).

Record src_ok (g : gendesc) (coreh : string) : Prop := {
  so_gen : gen_ok g;
  so_struct : is_ident (n_usestruct g) = true;
  so_orig : all_chars is_idchar (n_orig g) = true;
  so_cominfo : info_ok (n_cominfo g);
  so_drvinfo : info_ok (n_drvinfo g);
  so_ver : no_nl (n_verhi g) = true /\ no_nl (n_verlow g) = true;
  so_coreh : no_nl coreh = true;
  so_len : (String.length (n_usestruct g) <= 1100)%nat /\ (String.length (n_orig g) <= 1000)%nat
           /\ (String.length (n_verhi g) <= 1100)%nat /\ (String.length (n_verlow g) <= 1100)%nat
           /\ (String.length coreh <= 1100)%nat
           /\ (String.length (pu (n_hi g)) <= 100)%nat /\ (String.length (pu (n_low g)) <= 100)%nat
}.

Definition tick_comment : list string :=
  [""; "// This macro guard for the case when you need to enable";
   "// using diag monitors but there is no necessity in proper";
   "// SysTick provider. For providing one you need define macro";
   "// before this line - in dbccodeconf.h"; ""].
Definition hash_comment : list string :=
  [""; "// This macro guard is for the case when you want to build";
   "// app with enabled optoin auto CSM, but don't yet have";
   "// proper getframehash implementation"; ""].

Definition if_ver (g : gendesc) : string :=
  "(" ++ n_verhi g ++ " != (" ++ pu (n_hi g) ++ "U)) || (" ++ n_verlow g ++ " != (" ++ pu (n_low g) ++ "U))".

Definition top_items (g : gendesc) (coreh : string) : items :=
  clist (lines (n_cominfo g)) (clist (lines (n_drvinfo g))
    (ISkip ("#include " ++ dq ++ coreh ++ dq)
    (clist [""; ""; "// DBC file version"]
    (INever (if_ver g) (ISkip ("#error The " ++ n_DRV g ++ " dbc source files have different versions") INil) ""
    (clist [""]
    (ICond false (n_usemon g)
       (clist ["// Function prototypes to be called each time CAN frame is unpacked";
               "// FMon function may detect RC, CRC or DLC violation"]
          (ISkip ("#include " ++ dq ++ n_drv g ++ "-fmon.h" ++ dq) (clist [""] INil)))
       false INil (" // " ++ n_usemon g)
    (clist tick_comment
    (ICond true "GetSystemTick" (IDef "GetSystemTick() (0u)" INil) false INil ""
    (clist hash_comment
    (ICond true "GetFrameHash" (IDef "GetFrameHash(a,b,c,d,e) (0u)" INil) false INil ""
    (clist ("" :: lines extend_func_text) INil))))))))))).

Lemma skip_include : forall s, skip_dir ("#include " ++ s).
Proof.
  intros s. exists "include", (skip_blanks s). split; [|reflexivity].
  exact (directive_word "include" s eq_refl ltac:(discriminate)).
Qed.
Lemma skip_error : forall s, skip_dir ("#error " ++ s).
Proof.
  intros s. exists "error", (skip_blanks s). split; [|reflexivity].
  exact (directive_word "error" s eq_refl ltac:(discriminate)).
Qed.

Lemma pu_nonl : forall z, no_nl (pu z) = true.
Proof. intros. apply no_nl_ident. apply dec_idchars. Qed.

Lemma top_wf : forall g coreh, src_ok g coreh -> iwf (top_items g coreh).
Proof.
  intros g coreh SO. pose proof (so_gen _ _ SO) as GO. unfold top_items.
  apply iwf_clist; [apply comments_plain, (so_cominfo _ _ SO)|].
  apply iwf_clist; [apply comments_plain, (so_drvinfo _ _ SO)|].
  cbn [iwf]. split; [apply skip_include|].
  apply iwf_clist; [repeat constructor|].
  cbn [iwf]. split; [split; [exact (skip_error _)|exact Logic.I]|]. split; [now left|].
  apply iwf_clist; [repeat constructor|].
  cbn [iwf]. split; [apply GO|]. split.
  { apply iwf_clist; [repeat constructor|]. cbn [iwf]. split; [apply skip_include|].
    apply iwf_clist; [repeat constructor|exact Logic.I]. }
  split; [exact Logic.I|]. split; [auto|]. split; [right; eexists; reflexivity|].
  apply iwf_clist; [repeat constructor|].
  cbn [iwf]. split; [reflexivity|]. split; [split; [|exact Logic.I]; exists "G"%char; eexists; split; reflexivity|].
  split; [exact Logic.I|]. split; [auto|]. split; [now left|].
  apply iwf_clist; [repeat constructor|].
  cbn [iwf]. split; [reflexivity|]. split; [split; [|exact Logic.I]; exists "G"%char; eexists; split; reflexivity|].
  split; [exact Logic.I|]. split; [auto|]. split; [now left|].
  apply iwf_clist; [|exact Logic.I].
  replace (lines extend_func_text) with (ltac:(let v := eval vm_compute in (lines extend_func_text) in exact v))
    by (vm_compute; reflexivity).
  repeat constructor.
Qed.

Lemma top_full : forall g coreh, src_ok g coreh -> Forall full (source_top g coreh).
Proof.
  intros g coreh SO. unfold source_top.
  constructor; [apply (so_cominfo _ _ SO)|]. constructor; [apply (so_drvinfo _ _ SO)|].
  repeat (constructor; [first [apply L_full|apply nls_full]|]). constructor.
Qed.

Ltac litlines :=
  repeat match goal with
  | |- context [lines (L (String ?a ?b))] =>
      let t := constr:(lines (L (String a b))) in
      let v := eval vm_compute in t in
      replace t with v by (vm_compute; reflexivity)
  | |- context [lines (L "")] => change (lines (L "")) with [""]
  | |- context [lines (nls ?n)] =>
      let v := eval vm_compute in (lines (nls n)) in change (lines (nls n)) with v
  end.

Lemma top_text : forall g coreh, src_ok g coreh ->
  plines (source_top g coreh) = flat (top_items g coreh).
Proof.
  intros g coreh SO. pose proof (so_gen _ _ SO) as GO.
  pose proof (go_len g GO) as (G1 & G2 & G3 & G4 & G5 & G6).
  destruct (so_len _ _ SO) as (S1 & S2 & S3 & S4 & S5 & S6 & S7).
  destruct (so_ver _ _ SO) as [V1 V2]. pose proof (so_coreh _ _ SO) as CH.
  pose proof (no_nl_ident' _ (go_DRV g GO)) as ND. pose proof (no_nl_ident _ (go_drv g GO)) as Nd.
  pose proof (no_nl_ident' _ (go_mon g GO)) as NM.
  unfold top_items. repeat (rewrite !flat_clist; cbn [flat]).
  unfold plines, source_top. cbn [flat_map].
  rewrite (lines_L ("#include " ++ dq ++ coreh ++ dq)).
  2: { apply raw_intro; unfold dq; [nonl; rewrite CH; reflexivity|rewrite !app_len; cbn [String.length]; lia]. }
  change ("#if (" ++ n_verhi g ++ " != (" ++ pu (n_hi g) ++ "U)) || (" ++ n_verlow g ++ " != ("
        ++ pu (n_low g) ++ "U))") with ("#if " ++ if_ver g).
  rewrite (lines_L ("#if " ++ if_ver g)).
  2: { apply raw_intro; unfold if_ver; [nonl; rewrite V1, V2, ?pu_nonl; reflexivity|rewrite !app_len; cbn [String.length]; lia]. }
  rewrite (lines_L ("#error The " ++ n_DRV g ++ " dbc source files have different versions")).
  2: { apply raw_intro; [nonl; rewrite ND; reflexivity|rewrite !app_len; cbn [String.length]; lia]. }
  rewrite (lines_L ("#ifdef " ++ n_usemon g)).
  2: { apply raw_intro; [nonl; rewrite NM; reflexivity|rewrite !app_len; cbn [String.length]; lia]. }
  rewrite (lines_L ("#include " ++ dq ++ n_drv g ++ "-fmon.h" ++ dq)).
  2: { apply raw_intro; unfold dq; [nonl; rewrite Nd; reflexivity|rewrite !app_len; cbn [String.length]; lia]. }
  rewrite (lines_L ("#endif // " ++ n_usemon g)).
  2: { apply raw_intro; [nonl; rewrite NM; reflexivity|rewrite !app_len; cbn [String.length]; lia]. }
  replace (lines (L ("// Function prototypes to be called each time CAN frame is unpacked" ++
    nl ++ "// FMon function may detect RC, CRC or DLC violation" ++ nl)))
    with ["// Function prototypes to be called each time CAN frame is unpacked";
          "// FMon function may detect RC, CRC or DLC violation"] by (vm_compute; reflexivity).
  replace (lines (L extend_func_text)) with (lines extend_func_text) by (vm_compute; reflexivity).
  litlines. unfold tick_comment, hash_comment.
  set (E := lines extend_func_text).
  cbn [List.app map flat_map]. rewrite ?List.app_nil_r. reflexivity.
Qed.

(** the guards add default macros *)
Definition guard (x d : string) (M : mtable) : mtable := if defined x M then M else pp_define d :: M.
Definition with_defaults (M : mtable) : mtable :=
  guard "GetFrameHash" "GetFrameHash(a,b,c,d,e) (0u)" (guard "GetSystemTick" "GetSystemTick() (0u)" M).

Lemma macs_guard : forall x d M, macs M (if xorb true (defined x M) then IDef d INil else INil) = guard x d M.
Proof. intros. unfold guard, macs. destruct (defined x M); reflexivity. Qed.
Lemma toks_guard : forall x d M M', toks M' (if xorb true (defined x M) then IDef d INil else INil) = [].
Proof. intros. destruct (xorb true (defined x M)); reflexivity. Qed.

Lemma top_macs : forall g coreh M, macs M (top_items g coreh) = with_defaults M.
Proof.
  intros. unfold top_items, with_defaults.
  rewrite !macs_clist. change (macs M (ISkip ?a ?b)) with (macs M b).
  rewrite !macs_clist. change (macs M (INever ?a ?b ?c ?d)) with (macs M d).
  rewrite !macs_clist, macs_cond.
  match goal with |- macs (macs M ?p) _ = _ =>
    replace (macs M p) with M by (destruct (xorb false (defined (n_usemon g) M)); reflexivity) end.
  rewrite !macs_clist, macs_cond, macs_guard, !macs_clist, macs_cond, macs_guard, !macs_clist.
  reflexivity.
Qed.

Lemma top_toks : forall g coreh M, src_ok g coreh ->
  toks M (top_items g coreh) = List.concat (map lex (lines extend_func_text)).
Proof.
  intros g coreh M SO. unfold top_items.
  rewrite !toks_clist, (lex_comments _ (proj2 (so_cominfo _ _ SO))), (lex_comments _ (proj2 (so_drvinfo _ _ SO))).
  cbn [List.app]. change (toks M (ISkip ?a ?b)) with (toks M b).
  rewrite toks_clist. change (List.concat (map lex [""; ""; "// DBC file version"])) with (@nil tok).
  cbn [List.app]. change (toks M (INever ?a ?b ?c ?d)) with (toks M d).
  rewrite toks_clist. change (List.concat (map lex [""])) with (@nil tok). cbn [List.app].
  rewrite toks_cond.
  match goal with |- (toks M ?p ++ toks (macs M ?p) _)%list = _ =>
    replace (macs M p) with M by (destruct (xorb false (defined (n_usemon g) M)); reflexivity);
    replace (toks M p) with (@nil tok) by (destruct (xorb false (defined (n_usemon g) M)); reflexivity) end.
  cbn [List.app].
  rewrite toks_clist. change (List.concat (map lex tick_comment)) with (@nil tok). cbn [List.app].
  rewrite toks_cond, macs_guard, toks_guard. cbn [List.app].
  rewrite toks_clist. change (List.concat (map lex hash_comment)) with (@nil tok). cbn [List.app].
  rewrite toks_cond, macs_guard, toks_guard. cbn [List.app].
  rewrite toks_clist. cbn [map List.concat]. change (toks _ INil) with (@nil tok).
  now rewrite List.app_nil_r.
Qed.

Lemma top_fold : forall o, fold_left fstep (List.concat (map lex (lines extend_func_text))) (fs0 o)
  = fs0 (ext_def :: o).
Proof.
  intros o.
  replace (List.concat (map lex (lines extend_func_text)))
    with (fd_head ext_def ++ TP PLbrace :: fd_body ext_def ++ [TP PRbrace])%list by (vm_compute; reflexivity).
  replace (ext_def :: o) with ({| fd_head := fd_head ext_def; fd_body := fd_body ext_def |} :: o) by reflexivity.
  apply fold_def; [reflexivity|]. intros h o'. vm_compute. reflexivity.
Qed.

(** ** The functions of one message *)

Definition un_name (g : gendesc) (m : message) : string := "Unpack_" ++ g_name m ++ "_" ++ n_orig g.
Definition pa_name (g : gendesc) (m : message) : string := "Pack_" ++ g_name m ++ "_" ++ n_orig g.

Definition un_head (g : gendesc) (m : message) : string :=
  "uint32_t Unpack_" ++ g_name m ++ "_" ++ n_orig g ++ "(" ++ g_name m
    ++ "_t* _m, const uint8_t* _d, uint8_t dlc_)".
Definition pa_head (g : gendesc) (m : message) (st : bool) : string :=
  "uint32_t Pack_" ++ g_name m ++ "_" ++ n_orig g ++ "(" ++ g_name m
    ++ (if st then "_t* _m, __CoderDbcCanFrame_t__* cframe)"
        else "_t* _m, uint8_t* _d, uint8_t* _len, uint8_t* _ide)").

Definition s_void : stmt := SExpr (EUn (UCast "void") (EId "dlc_")).
Definition un_items (g : gendesc) (m : message) : items :=
  ILine "  (void)dlc_;" [s_void] (unpack_items g m).

Definition pack_fun_items (g : gendesc) (m : message) (st : bool) : items :=
  ILine "" [] (ILine (pa_head g m st) [] (ILine "{" []
    (iapp (pack_items g m st) (ILine "}" [] (ILine "" [] INil))))).
Definition msg_items (g : gendesc) (m : message) : items :=
  if g_notempty m then
    ILine (un_head g m) [] (ILine "{" []
      (iapp (un_items g m)
        (ILine "}" [] (ILine "" []
          (ICond false (n_usestruct g) (pack_fun_items g m true) true (pack_fun_items g m false)
             (" // " ++ n_usestruct g) (ILine "" [] INil))))))
  else INil.

(** messages the emitted functions are analysed for *)
Record emit_ok (m : message) : Prop := {
  eo_msg : msg_ok m;
  eo_csm : csm_in8 m;
  eo_parts : few_parts m
}.

Lemma ident_prefix : forall a b, is_ident a = true -> all_chars is_idchar b = true -> is_ident (a ++ b) = true.
Proof.
  intros [|c a] b A B; [discriminate|]. cbn [String.append is_ident] in *.
  apply andb_true_iff in A. destruct A as [A1 A2]. rewrite A1. cbn [andb].
  rewrite all_chars_app, A2, B. reflexivity.
Qed.
Lemma un_name_ident : forall g m, all_chars is_idchar (n_orig g) = true -> is_ident (g_name m) = true ->
  is_ident (un_name g m) = true.
Proof.
  intros. unfold un_name. apply (ident_prefix "Unpack_"); [reflexivity|].
  rewrite !all_chars_app, (ident_chars _ H0), H. reflexivity.
Qed.
Lemma pa_name_ident : forall g m, all_chars is_idchar (n_orig g) = true -> is_ident (g_name m) = true ->
  is_ident (pa_name g m) = true.
Proof.
  intros. unfold pa_name. apply (ident_prefix "Pack_"); [reflexivity|].
  rewrite !all_chars_app, (ident_chars _ H0), H. reflexivity.
Qed.

Definition un_toks (g : gendesc) (m : message) : list tok :=
  [TId "uint32_t"; TId (un_name g m); TP PLpar; TId (g_name m ++ "_t"); TP (PBin OMul); TId "_m";
   TP PComma; TId "const"; TId "uint8_t"; TP (PBin OMul); TId "_d"; TP PComma; TId "uint8_t";
   TId "dlc_"; TP PRpar].
Definition pa_toks (g : gendesc) (m : message) (st : bool) : list tok :=
  ([TId "uint32_t"; TId (pa_name g m); TP PLpar; TId (g_name m ++ "_t"); TP (PBin OMul); TId "_m"; TP PComma]
   ++ (if st then [TId "__CoderDbcCanFrame_t__"; TP (PBin OMul); TId "cframe"; TP PRpar]
       else [TId "uint8_t"; TP (PBin OMul); TId "_d"; TP PComma; TId "uint8_t"; TP (PBin OMul); TId "_len";
             TP PComma; TId "uint8_t"; TP (PBin OMul); TId "_ide"; TP PRpar]))%list.

Lemma un_head_lex : forall g m, all_chars is_idchar (n_orig g) = true -> is_ident (g_name m) = true ->
  lex (un_head g m) = un_toks g m.
Proof.
  intros g m O N. pose proof (un_name_ident g m O N) as IU.
  assert (IT : is_ident (g_name m ++ "_t") = true) by (apply ident_prefix; auto).
  replace (un_head g m) with ("uint32_t " ++ (un_name g m ++ ("(" ++ ((g_name m ++ "_t")
     ++ ("* _m, const uint8_t* _d, uint8_t dlc_)" ++ ""))))).
  2: { unfold un_head, un_name. rewrite !app_assoc. reflexivity. }
  unfold lex. lexrun ltac:(rewrite lex_ident' by auto). reflexivity.
Qed.
Lemma pa_head_lex : forall g m st, all_chars is_idchar (n_orig g) = true -> is_ident (g_name m) = true ->
  lex (pa_head g m st) = pa_toks g m st.
Proof.
  intros g m st O N. pose proof (pa_name_ident g m O N) as IU.
  assert (IT : is_ident (g_name m ++ "_t") = true) by (apply ident_prefix; auto).
  destruct st.
  - replace (pa_head g m true) with ("uint32_t " ++ (pa_name g m ++ ("(" ++ ((g_name m ++ "_t")
     ++ ("* _m, __CoderDbcCanFrame_t__* cframe)" ++ ""))))).
    2: { unfold pa_head, pa_name. rewrite !app_assoc. reflexivity. }
    unfold lex. lexrun ltac:(rewrite lex_ident' by auto). reflexivity.
  - replace (pa_head g m false) with ("uint32_t " ++ (pa_name g m ++ ("(" ++ ((g_name m ++ "_t")
     ++ ("* _m, uint8_t* _d, uint8_t* _len, uint8_t* _ide)" ++ ""))))).
    2: { unfold pa_head, pa_name. rewrite !app_assoc. reflexivity. }
    unfold lex. lexrun ltac:(rewrite lex_ident' by auto). reflexivity.
Qed.

Lemma s_void_line : line_stmts "  (void)dlc_;" [s_void].
Proof. intros rs k. reflexivity. Qed.

Lemma un_items_wf : forall g m, gen_ok g -> msg_ok m ->
  iwf (un_items g m) /\ istm (un_items g m) /\ Forall raw_ok (flat (un_items g m)).
Proof.
  intros g m GO MO. apply line_wf; [reflexivity|apply s_void_line| |now apply unpack_items_wf].
  apply raw_intro; [reflexivity|cbn; lia].
Qed.

Lemma pack_fun_wf : forall g m st coreh, src_ok g coreh -> emit_ok m ->
  iwf (pack_fun_items g m st) /\ Forall raw_ok (flat (pack_fun_items g m st)).
Proof.
  intros g m st coreh SO EO. destruct (so_len _ _ SO) as (S1 & S2 & _).
  pose proof (eo_msg m EO) as MO. pose proof (mo_name_len m MO) as NL.
  destruct (pack_items_wf g m st (so_gen _ _ SO) MO (eo_csm m EO) (eo_parts m EO)) as (A & _ & C).
  unfold pack_fun_items. cbn [iwf flat]. rewrite flat_iapp. cbn [flat]. split.
  - split; [reflexivity|]. split; [reflexivity|]. split; [reflexivity|].
    apply iwf_iapp; auto. cbn [iwf]. repeat split; reflexivity.
  - constructor; [apply raw_empty|]. constructor.
    { apply raw_intro; unfold pa_head; destruct st.
      - nonl. rewrite (no_nl_ident' _ (mo_name m MO)), (no_nl_ident _ (so_orig _ _ SO)). reflexivity.
      - nonl. rewrite (no_nl_ident' _ (mo_name m MO)), (no_nl_ident _ (so_orig _ _ SO)). reflexivity.
      - rewrite !app_len. cbn [String.length]. lia.
      - rewrite !app_len. cbn [String.length]. lia. }
    constructor; [apply raw_intro; [reflexivity|cbn; lia]|].
    apply Forall_app. split; [exact C|].
    constructor; [apply raw_intro; [reflexivity|cbn; lia]|]. constructor; [apply raw_empty|constructor].
Qed.

Lemma msg_items_wf : forall g m coreh, src_ok g coreh -> (g_notempty m = true -> emit_ok m) ->
  iwf (msg_items g m) /\ Forall raw_ok (flat (msg_items g m)).
Proof.
  intros g m coreh SO EO. unfold msg_items. destruct (g_notempty m); [|split; constructor].
  specialize (EO eq_refl). pose proof (eo_msg m EO) as MO. pose proof (mo_name_len m MO) as NL.
  destruct (so_len _ _ SO) as (S1 & S2 & _).
  destruct (un_items_wf g m (so_gen _ _ SO) MO) as (A & _ & C).
  destruct (pack_fun_wf g m true coreh SO EO) as (A1 & C1).
  destruct (pack_fun_wf g m false coreh SO EO) as (A2 & C2).
  cbn [iwf flat]. rewrite flat_iapp. cbn [flat]. split.
  - split; [reflexivity|]. split; [reflexivity|]. apply iwf_iapp; [exact A|]. cbn [iwf].
    split; [reflexivity|]. split; [reflexivity|]. split; [apply SO|]. split; [exact A1|]. split; [exact A2|].
    split; [discriminate|]. split; [right; eexists; reflexivity|]. split; [reflexivity|exact Logic.I].
  - constructor.
    { apply raw_intro; unfold un_head.
      - nonl. rewrite (no_nl_ident' _ (mo_name m MO)), (no_nl_ident _ (so_orig _ _ SO)). reflexivity.
      - rewrite !app_len. cbn [String.length]. lia. }
    constructor; [apply raw_intro; [reflexivity|cbn; lia]|].
    apply Forall_app. split; [exact C|].
    constructor; [apply raw_intro; [reflexivity|cbn; lia]|]. constructor; [apply raw_empty|].
    constructor; [apply raw_intro; [nonl; rewrite (no_nl_ident' _ (so_struct _ _ SO)); reflexivity|
                   rewrite !app_len; cbn [String.length]; lia]|].
    apply Forall_app. split; [exact C1|]. constructor; [apply raw_intro; [reflexivity|cbn; lia]|].
    apply Forall_app. split; [exact C2|].
    constructor; [apply raw_intro; [nonl; rewrite (no_nl_ident' _ (so_struct _ _ SO)); reflexivity|
                   rewrite !app_len; cbn [String.length]; lia]|].
    constructor; [apply raw_empty|constructor].
Qed.

Lemma msg_text : forall g coreh m x, src_ok g coreh -> loaded m x -> (g_notempty m = true -> emit_ok m) ->
  exists t, msg_source g x = Ok t /\ Forall full t /\ plines t = flat (msg_items g m).
Proof.
  intros g coreh m x SO LD EO. pose proof (ld_msg m x LD) as LM.
  destruct (msg_items_wf g m coreh SO EO) as (_ & R).
  unfold msg_source, msg_items in *. rewrite LM in *.
  destruct (g_notempty m); cbn [negb]; [|exists []; repeat split; constructor].
  specialize (EO eq_refl). pose proof (eo_msg m EO) as MO. pose proof (mo_name_len m MO) as NL.
  destruct (so_len _ _ SO) as (S1 & S2 & _).
  rewrite (unpack_items_text g x); [|rewrite LM; apply LD|rewrite LM; exact MO]. rewrite LM. cbn [bind].
  pose proof (pack_body_text g m x true MO LD) as PT. cbv iota in PT. rewrite PT. cbn [bind].
  pose proof (pack_body_text g m x false MO LD) as PF. cbv iota in PF. rewrite PF. cbn [bind].
  eexists. split; [reflexivity|].
  destruct (un_items_wf g m (so_gen _ _ SO) MO) as (_ & _ & C).
  destruct (pack_fun_wf g m true coreh SO EO) as (_ & C1).
  destruct (pack_fun_wf g m false coreh SO EO) as (_ & C2).
  unfold pack_fun_items in C1, C2. cbn [flat] in C1, C2. rewrite flat_iapp in C1, C2. cbn [flat] in C1, C2.
  pose proof (Forall_inv_tail C) as R2.
  split.
  { repeat (apply Forall_app; split); repeat (constructor; [first [apply L_full|apply nls_full]|]);
      try constructor; try apply map_L_full; repeat (apply Forall_app; split);
      try apply map_L_full; repeat (constructor; [first [apply L_full|apply nls_full]|]); constructor. }
  rewrite !plines_app. cbn [flat]. rewrite !flat_iapp. unfold pack_fun_items. cbn [flat]. rewrite !flat_iapp. cbn [flat].
  rewrite plines_raws by exact R2.
  change (plines (?a :: ?b)) with (lines a ++ plines b)%list.
  rewrite !plines_app.
  rewrite (plines_raws (flat (pack_items g m true)))
    by (pose proof (Forall_inv_tail (Forall_inv_tail (Forall_inv_tail C1))) as Q2; apply Forall_app in Q2; apply Q2).
  rewrite (plines_raws (flat (pack_items g m false)))
    by (pose proof (Forall_inv_tail (Forall_inv_tail (Forall_inv_tail C2))) as Q2; apply Forall_app in Q2; apply Q2).
  unfold plines. cbn [flat_map].
  fold (un_head g m).
  replace ("uint32_t Unpack_" ++ g_name m ++ "_" ++ n_orig g ++ "(" ++ g_name m
     ++ "_t* _m, const uint8_t* _d, uint8_t dlc_)" ++ nl ++ "{") with (un_head g m ++ nl ++ "{")
    by (unfold un_head; rewrite !app_assoc; reflexivity).
  rewrite lines_L2; [|unfold un_head; nonl; rewrite (no_nl_ident' _ (mo_name m MO)), (no_nl_ident _ (so_orig _ _ SO)); reflexivity
     |reflexivity|discriminate|unfold un_head; rewrite !app_len; cbn [String.length]; lia].
  rewrite (lines_L ("#ifdef " ++ n_usestruct g)) by
    (apply raw_intro; [nonl; rewrite (no_nl_ident' _ (so_struct _ _ SO)); reflexivity|rewrite !app_len; cbn [String.length]; lia]).
  rewrite (lines_L ("#endif // " ++ n_usestruct g)) by
    (apply raw_intro; [nonl; rewrite (no_nl_ident' _ (so_struct _ _ SO)); reflexivity|rewrite !app_len; cbn [String.length]; lia]).
  fold (pa_head g m true). fold (pa_head g m false).
  rewrite (lines_L (pa_head g m true)) by (exact (Forall_inv (Forall_inv_tail C1))).
  rewrite (lines_L (pa_head g m false)) by (exact (Forall_inv (Forall_inv_tail C2))).
  litlines. unfold un_items. cbn [List.app flat]. rewrite ?List.app_nil_r.
  repeat (rewrite <- ?List.app_assoc; cbn [List.app]). reflexivity.
Qed.

Lemma nodef_iapp : forall a b, nodef a -> nodef b -> nodef (iapp a b).
Proof.
  induction a as [|s ss r IHr|s r IHr|s r IHr|n x a IHa e b' IHb t r IHr|s a IHa t r IHr];
    intros b A B; cbn [iapp nodef] in *; auto; intuition.
Qed.
Lemma unpack_nodef : forall g m, nodef (unpack_items g m).
Proof.
  intros. unfold unpack_items. apply nodef_iapp; [apply sigs_nodef|]. unfold mon_items. cbn [nodef].
  repeat split; auto. apply nodef_iapp; [|apply nodef_iapp; [|exact Logic.I]].
  - unfold roll_items. destruct (roll_sig m); cbn [nodef]; auto.
  - unfold csm_items. destruct (csm_sig m); cbn [nodef]; auto.
Qed.
Lemma pack_nodef : forall g m st, nodef (pack_items g m st).
Proof.
  intros. unfold pack_items. cbn [nodef].
  repeat first [apply nodef_iapp | apply inc_nodef | apply csm0_nodef | apply phys_nodef | apply bytes_nodef
               | apply csm1_nodef | progress cbn [nodef]].
  destruct st; cbn; auto.
Qed.
Lemma macs_nodef : forall M i, nodef i -> macs M i = M.
Proof. intros. now apply act_nodef. Qed.
Lemma msg_nodef : forall g m, nodef (msg_items g m).
Proof.
  intros. unfold msg_items. destruct (g_notempty m); [|exact Logic.I]. cbn [nodef].
  apply nodef_iapp; [apply (unpack_nodef g m)|]. unfold pack_fun_items. cbn [nodef].
  repeat split; apply nodef_iapp; try apply pack_nodef; cbn [nodef]; auto.
Qed.

(** the two definitions a message contributes, under the macros M *)
Definition un_def (M : mtable) (g : gendesc) (m : message) : fundef :=
  {| fd_head := un_toks g m; fd_body := toks M (un_items g m) |}.
Definition pa_def (M : mtable) (g : gendesc) (m : message) : fundef :=
  {| fd_head := pa_toks g m (defined (n_usestruct g) M);
     fd_body := toks M (pack_items g m (defined (n_usestruct g) M)) |}.
Definition msg_defs (M : mtable) (g : gendesc) (m : message) : list fundef :=
  if g_notempty m then [un_def M g m; pa_def M g m] else [].

Lemma pack_fun_toks : forall M g m st coreh, src_ok g coreh -> emit_ok m ->
  toks M (pack_fun_items g m st) = (pa_toks g m st ++ TP PLbrace :: toks M (pack_items g m st) ++ [TP PRbrace])%list.
Proof.
  intros M g m st coreh SO EO. unfold pack_fun_items. rewrite !toks_line, toks_iapp, !toks_line.
  rewrite pa_head_lex by (apply SO || apply (eo_msg m EO)). reflexivity.
Qed.

Lemma msg_fold : forall M g coreh m o, src_ok g coreh -> (g_notempty m = true -> emit_ok m) ->
  fold_left fstep (toks M (msg_items g m)) (fs0 o) = fs0 (rev (msg_defs M g m) ++ o).
Proof.
  intros M g coreh m o SO EO. unfold msg_items, msg_defs.
  destruct (g_notempty m); [|reflexivity]. specialize (EO eq_refl).
  destruct (un_items_wf g m (so_gen _ _ SO) (eo_msg m EO)) as (_ & SU & _).
  rewrite !toks_line, toks_iapp, !toks_line, macs_nodef by apply (unpack_nodef g m).
  rewrite toks_cond, xorb_false_l.
  set (st := defined (n_usestruct g) M).
  replace (toks M (if st then pack_fun_items g m true else pack_fun_items g m false))
    with (toks M (pack_fun_items g m st)) by (destruct st; reflexivity).
  rewrite (pack_fun_toks M g m st coreh SO EO), un_head_lex by (apply SO || apply (eo_msg m EO)).
  change (lex "{") with [TP PLbrace]. change (lex "}") with [TP PRbrace]. change (lex "") with (@nil tok).
  rewrite toks_line. change (lex "") with (@nil tok). change (toks _ INil) with (@nil tok).
  cbn [List.app]. rewrite List.app_nil_r.
  replace (un_toks g m ++ TP PLbrace :: toks M (un_items g m) ++ TP PRbrace
     :: pa_toks g m st ++ TP PLbrace :: toks M (pack_items g m st) ++ [TP PRbrace])%list
    with ((un_toks g m ++ TP PLbrace :: toks M (un_items g m) ++ [TP PRbrace])
     ++ (pa_toks g m st ++ TP PLbrace :: toks M (pack_items g m st) ++ [TP PRbrace]))%list
    by (rewrite <- !List.app_assoc; cbn [List.app]; now rewrite <- !List.app_assoc).
  rewrite fold_left_app, fold_def.
  - rewrite fold_def; [reflexivity|destruct st; reflexivity|].
    intros h o'. rewrite items_braces; [now rewrite List.app_nil_r|].
    apply (pack_items_wf g m st (so_gen _ _ SO) (eo_msg m EO) (eo_csm m EO) (eo_parts m EO)).
  - reflexivity.
  - intros h o'. rewrite items_braces; [now rewrite List.app_nil_r|exact SU].
Qed.

(** ** The whole source file *)

Definition src_items (g : gendesc) (coreh : string) (ms : list message) : items :=
  iapp (top_items g coreh) (fold_right (fun m r => iapp (msg_items g m) r) INil ms).

Lemma msgs_text : forall g coreh ms xs, src_ok g coreh -> Forall2 loaded ms xs ->
  (forall m, In m ms -> g_notempty m = true -> emit_ok m) ->
  exists ts, map_res (msg_source g) xs = Ok ts /\ Forall full (List.concat ts) /\
    plines (List.concat ts) = flat (fold_right (fun m r => iapp (msg_items g m) r) INil ms) /\
    iwf (fold_right (fun m r => iapp (msg_items g m) r) INil ms).
Proof.
  intros g coreh ms xs SO F. induction F as [|m x ms xs LD F IH]; intros EO.
  - exists []. repeat split; constructor.
  - destruct (msg_text g coreh m x SO LD) as (t & E & A & B); [intros; apply EO; cbn; auto|].
    destruct (msg_items_wf g m coreh SO) as (W & _); [intros; apply EO; cbn; auto|].
    destruct IH as (ts & E' & A' & B' & W'); [intros; apply EO; cbn; auto|].
    exists (t :: ts). cbn [map_res]. rewrite E. cbn [bind]. rewrite E'. cbn [bind List.concat fold_right].
    split; [reflexivity|]. split; [now apply Forall_app|]. rewrite plines_app, flat_iapp, B, B'.
    split; [reflexivity|]. now apply iwf_iapp.
Qed.

Lemma map_res_loaded : forall ms, (forall m, In m ms -> msg_ok m /\ csm_in8 m) ->
  exists xs, map_res load_message ms = Ok xs /\ Forall2 loaded ms xs.
Proof.
  induction ms as [|m ms IH]; intros H.
  - exists []. split; constructor.
  - destruct (H m ltac:(cbn; auto)) as [MO C8]. destruct (load_message_ok m MO C8) as (x & E & LD).
    destruct IH as (xs & E' & F); [intros; apply H; cbn; auto|].
    exists (x :: xs). cbn [map_res]. rewrite E. cbn [bind]. rewrite E'. cbn [bind]. split; [reflexivity|now constructor].
Qed.

Lemma msgs_fold : forall M g coreh ms o, src_ok g coreh ->
  (forall m, In m ms -> g_notempty m = true -> emit_ok m) ->
  fold_left fstep (toks M (fold_right (fun m r => iapp (msg_items g m) r) INil ms)) (fs0 o)
  = fs0 (rev (flat_map (msg_defs M g) ms) ++ o).
Proof.
  intros M g coreh. induction ms as [|m ms IH]; intros o SO EO; [reflexivity|].
  cbn [fold_right flat_map]. rewrite toks_iapp, fold_left_app, (msg_fold M g coreh m o SO) by (intros; apply EO; cbn; auto).
  rewrite macs_nodef by apply msg_nodef. rewrite IH by (auto; intros; apply EO; cbn; auto).
  rewrite rev_app_distr, List.app_assoc. reflexivity.
Qed.

(** the file compiles to the sign extension function followed by the Unpack and Pack functions of every
    message with a payload *)
Theorem source_compiles : forall M g coreh ms xs, src_ok g coreh -> Forall2 loaded ms xs ->
  (forall m, In m ms -> g_notempty m = true -> emit_ok m) ->
  exists t, main_source g coreh xs = Ok t /\
    let M1 := with_defaults M in
    compile M (sconcat t) = {| u_macros := M1; u_funs := ext_def :: flat_map (msg_defs M1 g) ms |}.
Proof.
  intros M g coreh ms xs SO F EO.
  destruct (msgs_text g coreh ms xs SO F EO) as (ts & E & FL & PL & W).
  eexists. split; [unfold main_source; rewrite E; reflexivity|]. cbv zeta.
  unfold compile. rewrite lines_pieces by (apply Forall_app; split; [now apply top_full|exact FL]).
  rewrite plines_app, top_text, PL by auto. rewrite <- flat_iapp. fold (src_items g coreh ms).
  assert (WS : iwf (src_items g coreh ms)) by (apply iwf_iapp; auto; now apply top_wf).
  destruct (pp_run_items M _ WS) as [P1 P2]. unfold pp_lines in P2. rewrite P1, P2.
  fold (macs M (src_items g coreh ms)). fold (toks M (src_items g coreh ms)).
  unfold src_items. rewrite macs_iapp, top_macs, toks_iapp, top_toks, top_macs by auto.
  f_equal.
  - apply macs_nodef. clear. induction ms; cbn [fold_right]; [exact Logic.I|].
    apply nodef_iapp; auto. apply msg_nodef.
  - unfold fundefs. change fstart with (fs0 []). rewrite fold_left_app, top_fold, (msgs_fold _ g coreh) by auto.
    cbn [fs_out fs0]. rewrite rev_app_distr, rev_involutive. reflexivity.
Qed.

(** ** Finding the functions of a message *)

Lemma app_tail_inj : forall t a b : string, a ++ t = b ++ t -> a = b.
Proof.
  intros t a. induction a as [|c a IH]; intros [|d b] E; cbn [String.append] in E; auto.
  - exfalso. assert (L : String.length t = S (String.length (b ++ t))) by (rewrite E at 1; reflexivity).
    rewrite app_len in L. lia.
  - exfalso. assert (L : S (String.length (a ++ t)) = String.length t) by (rewrite <- E at 2; reflexivity).
    rewrite app_len in L. lia.
  - injection E as -> E. f_equal. auto.
Qed.

Lemma find_fun_app : forall x a b, find_fun x a = None -> find_fun x (a ++ b) = find_fun x b.
Proof.
  induction a as [|f a IH]; intros b E; [reflexivity|]. cbn [find_fun List.app] in *.
  destruct (head_name (fd_head f)) as [y|]; auto. destruct (x =? y)%string; [discriminate|auto].
Qed.

Lemma head_un : forall M g m, head_name (fd_head (un_def M g m)) = Some (un_name g m).
Proof. reflexivity. Qed.
Lemma head_pa : forall M g m, head_name (fd_head (pa_def M g m)) = Some (pa_name g m).
Proof. reflexivity. Qed.
Lemma un_pa : forall g a b, (un_name g a =? pa_name g b)%string = false.
Proof. reflexivity. Qed.
Lemma pa_un : forall g a b, (pa_name g a =? un_name g b)%string = false.
Proof. reflexivity. Qed.
Lemma un_inj : forall g a b, un_name g a = un_name g b -> g_name a = g_name b.
Proof. intros g a b E. unfold un_name in E. cbn [String.append] in E. injection E as E. eapply app_tail_inj, E. Qed.
Lemma pa_inj : forall g a b, pa_name g a = pa_name g b -> g_name a = g_name b.
Proof. intros g a b E. unfold pa_name in E. cbn [String.append] in E. injection E as E. eapply app_tail_inj, E. Qed.

Lemma msgs_find : forall M g m ms, In m ms -> g_notempty m = true -> NoDup (map g_name ms) ->
  find_fun (un_name g m) (flat_map (msg_defs M g) ms) = Some (un_def M g m) /\
  find_fun (pa_name g m) (flat_map (msg_defs M g) ms) = Some (pa_def M g m).
Proof.
  intros M g m ms. induction ms as [|a ms IH]; intros I NE ND; [destruct I|].
  cbn [map] in ND. apply NoDup_cons_iff in ND. destruct ND as [NI ND]. cbn [flat_map].
  destruct I as [->|I].
  - unfold msg_defs at 1 3. rewrite NE. cbn [List.app find_fun].
    rewrite head_un, head_pa, String.eqb_refl, pa_un, String.eqb_refl. auto.
  - assert (N : g_name m <> g_name a) by (intros E; apply NI; rewrite <- E; now apply in_map).
    unfold msg_defs at 1 3. destruct (g_notempty a); cbn [List.app find_fun]; [|auto].
    rewrite !head_un, !head_pa, un_pa, pa_un.
    destruct (un_name g m =? un_name g a)%string eqn:E1; [apply String.eqb_eq in E1; elim N; eapply un_inj, E1|].
    destruct (pa_name g m =? pa_name g a)%string eqn:E2; [apply String.eqb_eq in E2; elim N; eapply pa_inj, E2|].
    auto.
Qed.

Lemma parse_toks : forall M i, iwf i -> istm i -> parse_stmts (toks M i) = Some (stms M i).
Proof.
  intros M i W S. unfold toks. destruct (pp_run_items M i W) as [_ E]. rewrite <- E. now apply parse_items.
Qed.

(** running the emitted functions of a message is running its statements *)
Theorem unpack_found : forall n c M g coreh ms m mm, src_ok g coreh -> In m ms -> g_notempty m = true ->
  NoDup (map g_name ms) -> emit_ok m ->
  run_fun n c (ext_def :: flat_map (msg_defs M g) ms) (un_name g m) mm
  = exec_list n c mm (s_void :: stms M (unpack_items g m)).
Proof.
  intros n c M g coreh ms m mm SO I NE ND EO. unfold run_fun.
  destruct (msgs_find M g m ms I NE ND) as [F _].
  change (find_fun (un_name g m) (ext_def :: flat_map (msg_defs M g) ms))
    with (if (un_name g m =? "__ext_sig__")%string then Some ext_def
          else find_fun (un_name g m) (flat_map (msg_defs M g) ms)).
  change (un_name g m =? "__ext_sig__")%string with false. cbv iota. rewrite F. cbn [fd_body un_def].
  destruct (un_items_wf g m (so_gen _ _ SO) (eo_msg m EO)) as (A & B & _).
  now rewrite parse_toks.
Qed.
Theorem pack_found : forall n c M g coreh ms m mm, src_ok g coreh -> In m ms -> g_notempty m = true ->
  NoDup (map g_name ms) -> emit_ok m ->
  run_fun n c (ext_def :: flat_map (msg_defs M g) ms) (pa_name g m) mm
  = exec_list n c mm (stms M (pack_items g m (defined (n_usestruct g) M))).
Proof.
  intros n c M g coreh ms m mm SO I NE ND EO. unfold run_fun.
  destruct (msgs_find M g m ms I NE ND) as [_ F].
  change (find_fun (pa_name g m) (ext_def :: flat_map (msg_defs M g) ms))
    with (if (pa_name g m =? "__ext_sig__")%string then Some ext_def
          else find_fun (pa_name g m) (flat_map (msg_defs M g) ms)).
  change (pa_name g m =? "__ext_sig__")%string with false. cbv iota. rewrite F. cbn [fd_body pa_def].
  destruct (pack_items_wf g m (defined (n_usestruct g) M) (so_gen _ _ SO) (eo_msg m EO) (eo_csm m EO) (eo_parts m EO))
    as (A & B & _).
  now rewrite parse_toks.
Qed.
