(** Signals that do not fit into the frame of their message: what the expression builder does with
    them, and what then appears in the emitted source. *)

From Coq Require Import ZArith NArith List String Ascii Bool Lia ZifyBool Permutation.
From Verif Require Import Base Dbl CSyntax CSem CRun Types Formatter SigPrinter Writer Settings
  MainGen CodecSpec MsgSpec LexLemmas BitLemmas Chunks UnpackProof PPProof BodyLemmas UnpackBody
  UnpackFun PackProof PackBody PackFun SourceFun DriverSpec DriverProof LayoutSpec.
Import ListNotations.
Open Scope Z_scope.
Ltac Zify.zify_post_hook ::= Z.div_mod_to_equations.

Lemma in_frame_intel : forall start len dlc, 0 <= start -> 1 <= len ->
  (in_frame Intel start len dlc <-> start + len - 1 < 8 * dlc).
Proof.
  intros start len dlc A B. unfold in_frame, sig_pos. split; intros H.
  - specialize (H (len - 1)). lia.
  - intros k K. lia.
Qed.
Lemma in_frame_motorola : forall start len dlc, 0 <= start -> 1 <= len ->
  (in_frame Motorola start len dlc <-> mirror start + len - 1 < 8 * dlc).
Proof.
  intros start len dlc A B. unfold in_frame, sig_pos. split; intros H.
  - specialize (H 0 ltac:(lia)). unfold mirror in *. lia.
  - intros k K. unfold mirror in *. lia.
Qed.

Lemma start_bit_pos_range : forall sg dlc, 1 <= s_len sg <= 64 -> 0 <= s_start sg -> dlc <= 64 ->
  countable sg dlc ->
  (8 * dlc <= first_bit sg -> dlc <= start_bit_pos sg / 8) /\ 0 <= start_bit_pos sg
  /\ (first_bit sg < 512 -> start_bit_pos sg = first_bit sg).
Proof.
  intros sg dlc L S D C. unfold countable, first_bit in *. unfold start_bit_pos, highest_bit in *.
  destruct (s_order sg); unfold uwrap; change (2 ^ 32) with 4294967296; change (2 ^ 16) with 65536.
  - replace (s_start sg + (s_len sg - 1)) with (s_start sg + s_len sg - 1) by lia.
    rewrite (Z.mod_small _ 4294967296) by lia. rewrite (Z.mod_small _ 65536) by lia.
    destruct (Z.ltb_spec (64 * 8 - 1) (s_start sg + s_len sg - 1)); lia.
  - rewrite (Z.mod_small _ 65536) by lia.
    destruct (Z.ltb_spec (64 * 8 - 1) (s_start sg)); lia.
Qed.

(** the start byte is outside: error text *)
Lemma bad_start : forall sg tb, 1 <= s_len sg <= 64 -> 0 <= s_start sg -> (List.length tb <= 64)%nat -> tb <> [] ->
  countable sg (Z.of_nat (List.length tb)) -> 8 * Z.of_nat (List.length tb) <= first_bit sg ->
  print_signal_expr sg tb = Ok (dlc_error_text, set_nth tb 0 dlc_error_text).
Proof.
  intros sg tb L S D NE C B.
  destruct (start_bit_pos_range sg (Z.of_nat (List.length tb)) L S ltac:(lia) C) as (X & _ & _).
  specialize (X B). unfold print_signal_expr. destruct tb as [|t tb]; [congruence|].
  replace (Z.of_nat (List.length (t :: tb)) <=? start_bit_pos sg / 8) with true by lia. reflexivity.
Qed.

Lemma add_byte_out : forall tb bn t, Z.of_nat (List.length tb) <= bn -> exists w, add_byte tb bn t = UB w.
Proof.
  intros tb bn t H. unfold add_byte. replace (bn <? 0) with false by lia.
  rewrite (proj2 (nth_error_None tb (Z.to_nat bn))) by lia. now eexists.
Qed.

Lemma add_byte_len : forall tb bn t tb', add_byte tb bn t = Ok tb' -> List.length tb' = List.length tb.
Proof.
  intros tb bn t tb' H. unfold add_byte in H. destruct (bn <? 0); [discriminate|].
  destruct (nth_error tb (Z.to_nat bn)) eqn:E; [|discriminate]. injection H as <-.
  apply set_nth_length. apply nth_error_Some. congruence.
Qed.

(** a Motorola signal that starts inside and runs past the end: the table is indexed out of bounds *)
Lemma chunk_loop_overrun : forall q fuel sg bn r acc tb,
  s_order sg = Motorola -> (q < fuel)%nat -> 0 <= r < 8 -> 0 <= bn < Z.of_nat (List.length tb) ->
  (List.length tb <= 64)%nat ->
  Z.of_nat (List.length tb) <= bn + Z.of_nat q + (if r =? 0 then 0 else 1) ->
  (exists w, chunk_loop fuel sg (8 * Z.of_nat q + r) bn acc tb = UB w)
  \/ 0 < r /\ exists acc' tb' , chunk_loop fuel sg (8 * Z.of_nat q + r) bn acc tb
       = Ok (LoopDone r (Z.of_nat (List.length tb) - 1) acc' tb') /\ List.length tb' = List.length tb.
Proof.
  induction q; intros fuel sg bn r acc tb O F R B T OV; (destruct fuel as [|f]; [lia|]); cbn [chunk_loop].
  - replace (8 * Z.of_nat 0 + r - 8 >=? 0) with false by geb. right.
    destruct (Z.eqb_spec r 0); [lia|]. split; [lia|]. exists acc, tb.
    replace (8 * Z.of_nat 0 + r) with r by lia. replace bn with (Z.of_nat (List.length tb) - 1) by lia. auto.
  - replace (8 * Z.of_nat (S q) + r - 8 >=? 0) with true by geb.
    replace (8 * Z.of_nat (S q) + r - 8) with (8 * Z.of_nat q + r) by lia.
    rewrite shift_byte_next by (unfold next; try rewrite O; lia). unfold next. rewrite O.
    replace (Z.of_nat (List.length tb) <? bn + 1) with false by lia.
    destruct (Z.eq_dec (bn + 1) (Z.of_nat (List.length tb))) as [E|NE].
    + left. destruct (8 * Z.of_nat q + r =? 0);
        match goal with |- context [add_byte tb (bn + 1) ?t] =>
          destruct (add_byte_out tb (bn + 1) t ltac:(lia)) as (w & ->) end; exists w; reflexivity.
    + destruct (8 * Z.of_nat q + r =? 0);
        match goal with |- context [add_byte tb (bn + 1) ?t] =>
          pose proof (add_byte_ok tb (bn + 1) t ltac:(lia)) as A; pose proof (add_byte_len tb (bn + 1) t _ A) as AL;
          rewrite A; cbn [bind] end;
        match goal with |- context [chunk_loop f sg _ _ ?a ?t] =>
          specialize (IHq f sg (bn + 1) r a t O ltac:(lia) R) end;
        rewrite AL in IHq; apply IHq; auto; lia.
Qed.

Lemma motorola_overrun : forall sg tb, s_order sg = Motorola -> 1 <= s_len sg <= 64 -> 0 <= s_start sg ->
  (List.length tb <= 64)%nat -> s_start sg < 8 * Z.of_nat (List.length tb) ->
  ~ in_frame (s_order sg) (s_start sg) (s_len sg) (Z.of_nat (List.length tb)) ->
  exists w, print_signal_expr sg tb = UB w.
Proof.
  intros sg tb O L S D B NF. rewrite O, in_frame_motorola in NF by lia.
  assert (TB : first_bit sg = s_start sg) by (unfold first_bit, startb; now rewrite O).
  destruct (start_bit_pos_range sg (Z.of_nat (List.length tb)) L S ltac:(lia)) as (_ & _ & X).
  { left. lia. }
  rewrite TB in X. specialize (X ltac:(lia)). unfold print_signal_expr. rewrite X.
  destruct tb as [|t0 tb0] eqn:TB0; [simpl in B; lia|]. rewrite <- TB0 in *. clear TB0 t0 tb0.
  set (bn := s_start sg / 8) in *. set (bbc := s_start sg mod 8 + 1).
  replace (Z.of_nat (List.length tb) <=? bn) with false by lia.
  assert (LB : bbc < s_len sg) by (subst bbc; unfold mirror in NF; lia).
  replace (bbc >? s_len sg) with false by geb. replace (bbc =? s_len sg) with false by lia.
  match goal with |- context [add_byte tb bn ?t] =>
    pose proof (add_byte_ok tb bn t ltac:(lia)) as A; pose proof (add_byte_len tb bn t _ A) as AL; rewrite A; cbn [bind] end.
  clear A. match goal with |- context [chunk_loop 40 sg _ _ ?a ?t] => set (acc := a); set (tb1 := t) in * end.
  set (q := Z.to_nat ((s_len sg - bbc) / 8)). set (r := (s_len sg - bbc) mod 8).
  replace (s_len sg - bbc) with (8 * Z.of_nat q + r) by lia.
  destruct (chunk_loop_overrun q 40 sg bn r acc tb1 O) as [(w & ->)|(R0 & acc' & tb' & -> & LT)];
    try (subst q r bbc bn; unfold mirror in NF; rewrite ?AL; lia).
  - subst r. destruct (Z.eqb_spec ((s_len sg - bbc) mod 8) 0); rewrite AL; subst q bbc bn; unfold mirror in NF; lia.
  - now exists w.
  - cbn [bind]. replace (r >? 0) with true by geb.
    rewrite shift_byte_next by (unfold next; try rewrite O; lia). unfold next. rewrite O.
    match goal with |- context [add_byte tb' ?b ?t] => destruct (add_byte_out tb' b t ltac:(lia)) as (w & ->) end.
    now exists w.
Qed.

(** *** The three cases *)

Lemma layout_cases : forall sg tb, sane sg -> tb <> [] -> (List.length tb <= 64)%nat ->
  let dlc := Z.of_nat (List.length tb) in
  countable sg dlc ->
  (in_frame (s_order sg) (s_start sg) (s_len sg) dlc /\
     exists e tb', print_signal_expr sg tb = Ok (e, tb') /\ List.length tb' = List.length tb)
  \/ (~ in_frame (s_order sg) (s_start sg) (s_len sg) dlc /\
      (s_order sg = Intel \/ 8 * dlc <= s_start sg) /\
      print_signal_expr sg tb = Ok (dlc_error_text, set_nth tb 0 dlc_error_text))
  \/ (~ in_frame (s_order sg) (s_start sg) (s_len sg) dlc /\ s_order sg = Motorola /\ s_start sg < 8 * dlc /\
      exists w, print_signal_expr sg tb = UB w).
Proof.
  intros sg tb SA NE D dlc C. pose proof SA as (L & S & N).
  destruct (s_order sg) eqn:O.
  - destruct (Z.lt_ge_cases (s_start sg + s_len sg - 1) (8 * dlc)) as [I|I].
    + left. split; [now apply in_frame_intel|]. pose proof (print_signal_expr_chunks sg tb SA D) as P.
      rewrite O in P. specialize (P (proj2 (in_frame_intel _ _ _ S (proj1 L)) I)). cbv zeta in P.
      eexists _, _. split; [exact P|]. apply put_chunks_length. intros c IC.
      eapply chunks_bytes; eauto; try lia. now apply in_frame_intel.
    + right. left. split; [rewrite in_frame_intel; lia|]. split; [now left|].
      apply bad_start; auto. unfold first_bit. rewrite O. lia.
  - destruct (Z.lt_ge_cases (s_start sg) (8 * dlc)) as [I|I].
    + destruct (Z.lt_ge_cases (mirror (s_start sg) + s_len sg - 1) (8 * dlc)) as [J|J].
      * left. split; [now apply in_frame_motorola|]. pose proof (print_signal_expr_chunks sg tb SA D) as P.
        rewrite O in P. specialize (P (proj2 (in_frame_motorola _ _ _ S (proj1 L)) J)). cbv zeta in P.
        eexists _, _. split; [exact P|]. apply put_chunks_length. intros c IC.
        eapply chunks_bytes; eauto; try lia. now apply in_frame_motorola.
      * right. right. rewrite in_frame_motorola by lia. split; [lia|]. split; auto. split; auto.
        apply motorola_overrun; auto. rewrite O, in_frame_motorola by lia. fold dlc. lia.
    + right. left. split; [rewrite in_frame_motorola by lia; unfold mirror; lia|]. split; [now right|].
      apply bad_start; auto. unfold first_bit. rewrite O. lia.
Qed.

(** ** The emitted line *)

Lemma lex_error_line : forall sg, is_ident (s_name sg) = true -> exists r,
  lex (error_line sg)
  = ([TId "_m"; TP PArrow; TId (s_name sg); TP (PBin OAsg)] ++ ty_toks (s_typero sg)
     ++ (if s_signed sg then [TId "__ext_sig__"; TP PLpar] else [])
     ++ TP PLpar :: TId "Error" :: TId "in" :: r)%list.
Proof.
  intros sg ID. unfold error_line, error_text. destruct (s_signed sg).
  - unfold lex. set (tl := (" ), " ++ decZ (s_len sg) ++ ");")%string).
    eexists.
    lexrun ltac:(first [ rewrite lex_ident' by (auto using is_ident_type) ]).
    unfold ty_toks. appnorm. reflexivity.
  - unfold lex. eexists.
    lexrun ltac:(first [ rewrite lex_ident' by (auto using is_ident_type) ]).
    unfold ty_toks. appnorm. reflexivity.
Qed.

Lemma error_line_bad : forall sg, is_ident (s_name sg) = true -> no_statement (error_line sg).
Proof.
  intros sg ID rs k. destruct (lex_error_line sg ID) as (r & ->).
  destruct (s_signed sg), (s_typero sg); reflexivity.
Qed.

(** ** Where the line is *)

Ltac fulls := repeat first [ apply Forall_nil | apply Forall_cons | apply Forall_app; split
                           | apply L_full | apply nls_full ].

Lemma pack_bytes_full : forall arr tb i, Forall full (pack_bytes arr i tb).
Proof.
  induction tb as [|e tb IH]; intros i; cbn [pack_bytes]; fulls; [|apply IH].
  destruct (String.length e <? 2)%nat; fulls.
Qed.
Lemma pack_common_full : forall g arr x l, pack_common g arr x = Ok l -> Forall full l.
Proof.
  intros g arr x l H. unfold pack_common in H.
  assert (P : forall sgs, Forall full (List.concat (map (fun sg => if s_simple sg then []
     else [L ("  _m->" ++ s_name sg ++ " = (" ++ print_type (s_typero sg) ++ ") " ++ n_DRV g ++ "_" ++ s_name sg
              ++ "_toS(_m->" ++ s_namefloat sg ++ ");")%string]) sgs))).
  { induction sgs as [|sg sgs IH]; cbn [map List.concat]; fulls; auto. destruct (s_simple sg); fulls. }
  destruct (roll_sig (x_msg x)) as [sg|].
  - destruct (roll_mask sg) as [k| |]; cbn [bind] in H; try discriminate. injection H as <-.
    fulls; try apply pack_bytes_full; try (destruct (csm_sig (x_msg x)); fulls);
      try (destruct (g_hasphys (x_msg x)); fulls; apply P).
  - cbn [bind] in H. injection H as <-.
    fulls; try apply pack_bytes_full; try (destruct (csm_sig (x_msg x)); fulls);
      try (destruct (g_hasphys (x_msg x)); fulls; apply P).
Qed.
Lemma unpack_sigs_full : forall g sgs es, Forall full (unpack_sigs g sgs es).
Proof.
  induction sgs as [|sg sgs IH]; intros [|e es]; cbn [unpack_sigs]; fulls; auto.
  1: destruct (s_signed sg); fulls.
  destruct (s_simple sg); [destruct es; fulls|]. destruct (s_double sg); fulls.
Qed.
Lemma unpack_body_full : forall g x l, unpack_body g x = Ok l -> Forall full l.
Proof.
  intros g x l H. unfold unpack_body in H. destruct (roll_sig (x_msg x)) as [sg|].
  - destruct (roll_mask sg) as [k| |]; cbn [bind] in H; try discriminate. injection H as <-.
    fulls; try apply unpack_sigs_full. destruct (csm_sig (x_msg x)); fulls.
  - cbn [bind] in H. injection H as <-. fulls; try apply unpack_sigs_full.
    destruct (csm_sig (x_msg x)); fulls.
Qed.
Lemma msg_source_full : forall g x l, msg_source g x = Ok l -> Forall full l.
Proof.
  intros g x l H. unfold msg_source in H. destruct (g_notempty (x_msg x)); cbn [negb] in H.
  - destruct (unpack_body g x) as [u| |] eqn:U; cbn [bind] in H; try discriminate.
    unfold pack_struct_body, pack_array_body in H.
    destruct (pack_common g "cframe->Data" x) as [c1| |] eqn:C1; cbn [bind] in H; try discriminate.
    destruct (pack_common g "_d" x) as [c2| |] eqn:C2; cbn [bind] in H; try discriminate.
    injection H as <-. pose proof (unpack_body_full _ _ _ U). pose proof (pack_common_full _ _ _ _ C1).
    pose proof (pack_common_full _ _ _ _ C2). fulls; auto.
  - injection H as <-. constructor.
Qed.

Lemma lines_piece : forall ps p s, Forall full ps -> In p ps -> In s (lines p) -> In s (lines (sconcat ps)).
Proof.
  intros ps p s F I J. rewrite lines_pieces by auto. unfold plines. apply in_flat_map. eauto.
Qed.

Lemma map_res_ok_in : forall A B (f : A -> res B) l r a, map_res f l = Ok r -> In a l ->
  exists b, f a = Ok b /\ In b r.
Proof.
  induction l as [|x l IH]; intros r a H I; [contradiction|]. cbn [map_res] in H.
  destruct (f x) as [y| |] eqn:E; cbn [bind] in H; try discriminate.
  destruct (map_res f l) as [ys| |] eqn:Es; cbn [bind] in H; try discriminate. injection H as <-.
  destruct I as [->|I]; [exists y; cbn; auto|]. destruct (IH ys a eq_refl I) as (b & B1 & B2). exists b. cbn. auto.
Qed.
Lemma map_res_ok_all : forall A B (f : A -> res B) (P : B -> Prop) l r, map_res f l = Ok r ->
  (forall a b, f a = Ok b -> P b) -> Forall P r.
Proof.
  induction l as [|x l IH]; intros r H F; cbn [map_res] in H; [injection H as <-; constructor|].
  destruct (f x) as [y| |] eqn:E; cbn [bind] in H; try discriminate.
  destruct (map_res f l) as [ys| |] eqn:Es; cbn [bind] in H; try discriminate. injection H as <-.
  constructor; eauto.
Qed.

Lemma source_piece : forall g coreh xs c x, src_ok g coreh -> main_source g coreh xs = Ok c -> In x xs ->
  g_notempty (x_msg x) = true ->
  exists u, unpack_body g x = Ok u /\ forall s, In s (plines u) -> In s (lines (sconcat c)).
Proof.
  intros g coreh xs c x SO H I NE. unfold main_source in H.
  destruct (map_res (msg_source g) xs) as [ms| |] eqn:MS; cbn [bind] in H; try discriminate. injection H as <-.
  destruct (map_res_ok_in _ _ _ _ _ x MS I) as (l & E & IL).
  pose proof (map_res_ok_all _ _ _ (Forall full) _ _ MS (msg_source_full g)) as FM.
  assert (FULL : Forall full (source_top g coreh ++ List.concat ms)).
  { apply Forall_app. split.
    - unfold source_top. constructor; [apply (so_cominfo _ _ SO)|]. constructor; [apply (so_drvinfo _ _ SO)|]. fulls.
    - apply Forall_concat. exact FM. }
  unfold msg_source in E. rewrite NE in E. cbn [negb] in E.
  destruct (unpack_body g x) as [u| |] eqn:U; cbn [bind] in E; try discriminate. exists u. split; [reflexivity|].
  intros s IS. unfold plines in IS. apply in_flat_map in IS. destruct IS as (p & IP & IS).
  eapply lines_piece; [exact FULL| |exact IS].
  apply (in_or_app (source_top g coreh)). right. apply in_concat. exists l. split; [exact IL|].
  destruct (pack_struct_body g x) as [ps| |]; cbn [bind] in E; try discriminate.
  destruct (pack_array_body g x) as [pa| |]; cbn [bind] in E; try discriminate. injection E as <-.
  right. right. apply in_or_app. now left.
Qed.

Lemma set0_length : forall (tb : list string) e, tb <> [] -> List.length (set_nth tb 0 e) = List.length tb.
Proof. intros tb e H. apply set_nth_length. destruct tb; [congruence|cbn; lia]. Qed.

Lemma chunk_loop_len : forall fuel sg slen bn acc tb r, chunk_loop fuel sg slen bn acc tb = Ok r -> tb <> [] ->
  match r with LoopDone _ _ _ tb' => List.length tb' = List.length tb | LoopErr tb' => List.length tb' = List.length tb end.
Proof.
  induction fuel as [|f IH]; intros sg slen bn acc tb r H NE; [discriminate|]. cbn [chunk_loop] in H.
  destruct (slen - 8 >=? 0); [|injection H as <-; reflexivity].
  destruct (Z.of_nat (List.length tb) <? shift_byte sg bn); [injection H as <-; now apply set0_length|].
  destruct (slen - 8 =? 0).
  - match type of H with context [add_byte ?t ?b ?s] => destruct (add_byte t b s) as [tb1| |] eqn:A end;
      cbn [bind] in H; try discriminate.
    apply add_byte_len in A. apply IH in H; [|destruct tb, tb1; cbn in A; congruence]. rewrite A in H. exact H.
  - match type of H with context [add_byte ?t ?b ?s] => destruct (add_byte t b s) as [tb1| |] eqn:A end;
      cbn [bind] in H; try discriminate.
    apply add_byte_len in A. apply IH in H; [|destruct tb, tb1; cbn in A; congruence]. rewrite A in H. exact H.
Qed.

Lemma ok_snd : forall A B (a c : A) (b d : B), Ok (a, b) = Ok (c, d) -> b = d.
Proof. intros. congruence. Qed.

Lemma bind_inv : forall A B (r : res A) (f : A -> res B) b, bind r f = Ok b -> exists a, r = Ok a /\ f a = Ok b.
Proof. intros A B [a| |] f b H; try discriminate. exists a. auto. Qed.

Lemma print_len : forall sg tb e tb', print_signal_expr sg tb = Ok (e, tb') -> List.length tb' = List.length tb.
Proof.
  intros sg tb e tb' H. unfold print_signal_expr in H. generalize dependent 40%nat. intros fuel H.
  destruct tb as [|t0 r0] eqn:T; [apply ok_snd in H; subst; reflexivity|].
  rewrite <- T in *. assert (NE : tb <> []) by congruence. clear T t0 r0.
  destruct (Z.of_nat (List.length tb) <=? start_bit_pos sg / 8); [apply ok_snd in H; rewrite <- H; now apply set0_length|].
  destruct (start_bit_pos sg mod 8 + 1 >? s_len sg).
  { apply bind_inv in H. destruct H as (tb1 & A & H). apply add_byte_len in A. apply ok_snd in H. congruence. }
  destruct (start_bit_pos sg mod 8 + 1 =? s_len sg).
  { apply bind_inv in H. destruct H as (tb1 & A & H). apply add_byte_len in A. apply ok_snd in H. congruence. }
  apply bind_inv in H. destruct H as (tb1 & A & H). apply add_byte_len in A.
  apply bind_inv in H. destruct H as (r & C & H).
  apply chunk_loop_len in C; [|destruct tb, tb1; cbn in A; congruence].
  destruct r as [sl bn acc tb2|tb2].
  - destruct (sl >? 0).
    + apply bind_inv in H. destruct H as (tb3 & A3 & H). apply add_byte_len in A3. apply ok_snd in H. congruence.
    + apply ok_snd in H. congruence.
  - apply ok_snd in H. congruence.
Qed.

Lemma build_exprs_at : forall sgs tb es tb' sg, build_exprs sgs tb = Ok (es, tb') -> In sg sgs ->
  exists e t1 t2, print_signal_expr sg t1 = Ok (e, t2) /\ List.length t1 = List.length tb /\
    In (sg, e) (combine sgs es).
Proof.
  induction sgs as [|s sgs IH]; intros tb es tb' sg H I; [contradiction|]. cbn [build_exprs] in H.
  destruct (print_signal_expr s tb) as [[e t2]| |] eqn:P; cbn [bind] in H; try discriminate.
  destruct (build_exprs sgs t2) as [[es1 t3]| |] eqn:B; cbn [bind] in H; try discriminate. injection H as <- <-.
  destruct I as [->|I].
  - exists e, tb, t2. cbn [combine]. cbn. auto.
  - destruct (IH t2 es1 t3 sg B I) as (e' & a & b & P1 & P2 & P3). exists e', a, b.
    split; [exact P1|]. split; [rewrite P2; eapply print_len; eauto|]. cbn [combine]. now right.
Qed.

Lemma unpack_sigs_at : forall g sgs es sg e, In (sg, e) (combine sgs es) ->
  exists last, forall p, In p (unpack_sig g sg e last) -> In p (unpack_sigs g sgs es).
Proof.
  induction sgs as [|s sgs IH]; intros es sg e I; [contradiction|]. destruct es as [|e0 es]; [contradiction|].
  cbn [combine] in I. cbn [unpack_sigs]. destruct I as [E|I].
  - injection E as -> ->. eexists. intros p P. apply in_or_app. left. exact P.
  - destruct (IH es sg e I) as (last & F). exists last. intros p P. apply in_or_app. right. auto.
Qed.

Lemma unpack_body_at : forall g x u p, unpack_body g x = Ok u ->
  In p (unpack_sigs g (g_sigs (x_msg x)) (x_tosig x)) -> In p u.
Proof.
  intros g x u p H I. unfold unpack_body in H. destruct (roll_sig (x_msg x)) as [sg|].
  - destruct (roll_mask sg); cbn [bind] in H; try discriminate. injection H as <-. apply in_or_app. now left.
  - cbn [bind] in H. injection H as <-. apply in_or_app. now left.
Qed.

Lemma load_message_exprs : forall m x, load_message m = Ok x -> x_msg x = m /\
  exists tb, build_exprs (g_sigs m) (repeat ""%string (Z.to_nat (g_dlc m))) = Ok (x_tosig x, tb).
Proof.
  intros m x H. unfold load_message in H.
  destruct (build_exprs _ _) as [[es tb]| |]; cbn [bind] in H; try discriminate.
  destruct (csm_sig m) as [sg|].
  - destruct (print_signal_expr sg _) as [ev| |]; cbn [bind] in H; try discriminate.
    destruct (match first_nonempty 0 (snd ev) with Some p => p | None => (""%string, 0) end).
    injection H as <-. cbn. eauto.
  - injection H as <-. cbn. eauto.
Qed.

Lemma print_type_idchars : forall t, all_chars is_idchar (print_type t) = true /\ (String.length (print_type t) <= 8)%nat.
Proof. destruct t; cbn; split; auto; lia. Qed.

Lemma error_line_raw : forall sg, sane sg -> is_ident (s_name sg) = true -> raw_ok (error_line sg).
Proof.
  intros sg (L & S & N) ID. destruct (print_type_idchars (s_typero sg)) as [PT PL].
  pose proof (no_nl_ident _ (ident_chars _ ID)) as NN.
  pose proof (no_nl_ident _ PT) as NT.
  unfold error_line. rewrite decZ_num by lia. pose proof (num_len (s_len sg) ltac:(lia)) as NL.
  assert (NU : no_nl (num (s_len sg)) = true) by (apply no_nl_ident; apply dec_idchars).
  apply raw_intro.
  - destruct (s_signed sg); rewrite ?no_nl_app, ?NN, ?NT, ?NU; reflexivity.
  - destruct (s_signed sg); rewrite ?app_len; cbn [String.length error_text]; lia.
Qed.

Lemma ok_second : forall A B (a a' c c' : A) (b b' d d' : B) r r',
  Ok ((a, b) :: (c, d) :: r) = Ok ((a', b') :: (c', d') :: r') -> d = d'.
Proof. intros. congruence. Qed.

(** the emitted source contains the error text in the place of the signal's expression *)
Lemma error_line_emitted : forall srt d s c h rest m sg,
  sorts srt -> src_ok (st_g s) (f_coreh (st_f s)) ->
  generate_main srt d s = Ok ((f_coreh_path (st_f s), h) :: (f_corec_path (st_f s), c) :: rest) ->
  In m (d_msgs d) -> g_notempty m = true -> 1 <= g_dlc m <= 64 ->
  In sg (g_sigs m) -> sane sg -> is_ident (s_name sg) = true -> countable sg (g_dlc m) ->
  ~ in_frame (s_order sg) (s_start sg) (s_len sg) (g_dlc m) ->
  In (error_line sg) (lines c).
Proof.
  intros srt d s c h rest m sg SR SO GM IM NE D IS SA ID C NF.
  unfold generate_main in GM. rewrite load_messages_map in GM.
  destruct (map_res load_message (d_msgs d)) as [xs0| |] eqn:LM; cbn [bind] in GM; try discriminate.
  destruct (map_res_ok_in _ _ _ _ _ m LM IM) as (x & LX & IX).
  set (xs := srt ciexpr (fun x => g_id (x_msg x)) xs0) in *.
  assert (IX' : In x xs) by (eapply Permutation_in; [apply Permutation_sym, SR|exact IX]).
  destruct (main_header (st_g s) (d_maxdlc d) xs) as [hd| |]; cbn [bind] in GM; try discriminate.
  destruct (main_source (st_g s) (f_coreh (st_f s)) xs) as [cs| |] eqn:MS; cbn [bind] in GM; try discriminate.
  cbn [List.app] in GM. apply ok_second in GM. subst c.
  destruct (load_message_exprs m x LX) as (XM & tb & BE).
  destruct (source_piece _ _ _ _ x SO MS IX' ltac:(now rewrite XM)) as (u & U & LU).
  destruct (build_exprs_at _ _ _ _ sg BE IS) as (e & t1 & t2 & P & LT & IC).
  rewrite repeat_length in LT.
  assert (NT : t1 <> []) by (destruct t1; [cbn in LT; lia|discriminate]).
  assert (DL : Z.of_nat (List.length t1) = g_dlc m) by lia.
  assert (E : e = dlc_error_text).
  { pose proof (layout_cases sg t1 SA NT ltac:(lia)) as LC. cbv zeta in LC. rewrite DL in LC.
    destruct (LC C) as [(F & _)|[(_ & _ & Q)|(_ & _ & _ & w & Q)]]; [contradiction| |congruence].
    rewrite Q in P. injection P as <- _. reflexivity. }
  subst e. destruct (unpack_sigs_at (st_g s) _ _ _ _ IC) as (last & US).
  apply LU. unfold plines. apply in_flat_map. exists (L (error_line sg)). split.
  - eapply unpack_body_at; [exact U|]. rewrite XM. apply US. unfold unpack_sig. left.
    change error_text with dlc_error_text; unfold error_line, ext_sig_name. destruct (s_signed sg); reflexivity.
  - rewrite lines_L by now apply error_line_raw. now left.
Qed.

(** ** When the builder works through *)

(** the layout of a signal does not lead out of a table of [n] bytes *)
Definition safe_layout (sg : signal) (n : Z) : Prop :=
  s_order sg = Intel \/ 8 * n <= s_start sg \/ in_frame (s_order sg) (s_start sg) (s_len sg) n.

Lemma print_safe : forall sg tb, sane sg -> (List.length tb <= 64)%nat -> countable sg (Z.of_nat (List.length tb)) ->
  safe_layout sg (Z.of_nat (List.length tb)) -> exists e tb', print_signal_expr sg tb = Ok (e, tb').
Proof.
  intros sg tb SA D C SF. destruct tb as [|t0 tb0] eqn:T; [eexists _, _; reflexivity|]. rewrite <- T in *.
  pose proof (layout_cases sg tb SA ltac:(congruence) D) as LC. cbv zeta in LC.
  destruct (LC C) as [(_ & e & tb' & P & _)|[(_ & _ & P)|(NF & O & B & _)]]; eauto.
  destruct SF as [I|[I|I]]; [congruence|lia|contradiction].
Qed.

Lemma build_safe : forall sgs tb, (List.length tb <= 64)%nat ->
  (forall sg, In sg sgs -> sane sg /\ countable sg (Z.of_nat (List.length tb)) /\ safe_layout sg (Z.of_nat (List.length tb))) ->
  exists r, build_exprs sgs tb = Ok r.
Proof.
  induction sgs as [|sg sgs IH]; intros tb D H; [eexists; reflexivity|]. cbn [build_exprs].
  destruct (H sg (or_introl eq_refl)) as (A & B & C).
  destruct (print_safe sg tb A D B C) as (e & tb' & P). rewrite P. cbn [bind].
  pose proof (print_len _ _ _ _ P) as PL.
  destruct (IH tb') as ([es t] & ->); [lia| |cbn [bind]; eauto].
  intros s I. rewrite PL. apply H. now right.
Qed.

Lemma load_safe : forall m, 0 <= g_dlc m <= 64 ->
  (forall sg, In sg (g_sigs m) -> sane sg /\ countable sg (g_dlc m) /\ safe_layout sg (g_dlc m)) ->
  (forall sg, csm_sig m = Some sg -> sane sg /\ countable sg 8 /\ safe_layout sg 8) ->
  exists x, load_message m = Ok x.
Proof.
  intros m D H HC. unfold load_message.
  destruct (build_safe (g_sigs m) (repeat ""%string (Z.to_nat (g_dlc m)))) as ([es tb] & ->).
  - rewrite repeat_length. lia.
  - rewrite repeat_length, Z2Nat.id by lia. exact H.
  - cbn [bind]. destruct (csm_sig m) as [sg|]; [|eexists; reflexivity].
    destruct (HC sg eq_refl) as (A & B & C).
    destruct (print_safe sg (repeat ""%string 8) A ltac:(cbn; lia) B C) as (e & tb' & ->). cbn [bind].
    destruct (match first_nonempty 0 (snd (e, tb')) with Some p => p | None => (""%string, 0) end). eexists; reflexivity.
Qed.

(** one bad signal is enough *)
Lemma build_unsafe : forall sgs tb sg, (List.length tb <= 64)%nat -> In sg sgs ->
  s_order sg = Motorola -> 1 <= s_len sg <= 64 -> 0 <= s_start sg -> s_start sg < 8 * Z.of_nat (List.length tb) ->
  ~ in_frame (s_order sg) (s_start sg) (s_len sg) (Z.of_nat (List.length tb)) ->
  forall r, build_exprs sgs tb <> Ok r.
Proof.
  intros sgs tb sg D I O L S B NF [es tb'] H.
  destruct (build_exprs_at _ _ _ _ sg H I) as (e & t1 & t2 & P & LT & _).
  destruct (motorola_overrun sg t1 O L S) as (w & Q); rewrite ?LT; auto. congruence.
Qed.
