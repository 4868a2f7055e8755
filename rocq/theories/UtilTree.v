(** The search tree of Receive: its text, its statement and what that does. *)

From Coq Require Import ZArith NArith List String Ascii Bool Lia ZifyBool Permutation Sorted.
From Verif Require Import Base Dbl CSyntax CSem CRun Types Formatter SigPrinter Writer Settings MainGen UtilGen App CodecSpec MsgSpec
  LexLemmas PPProof BodyLemmas UnpackBody SourceFun DriverSpec DriverProof HeaderSpec HeaderProof HeaderRun CodecEnv StructSpec StructProof UtilSpec.
Import ListNotations.
Open Scope string_scope.

Definition umsg_ok (m : message) : Prop := is_ident (g_name m) = true /\ (String.length (g_name m) <= 1000)%nat /\ (0 <= g_id m < 2 ^ 32)%Z.

(** ** Texts *)

Definition eq_toks (m : message) : list tok := [TId "_id"; TP (PBin OEq); TInt U32 (g_id m)].
Definition rng_toks (a b : message) : list tok :=
  [TP PLpar; TId "_id"; TP (PBin OGe); TInt U32 (g_id a); TP PRpar; TP (PBin OLand); TP PLpar; TId "_id"; TP (PBin OLt); TInt U32 (g_id b); TP PRpar].
Definition call_toks (drv : string) (m : message) : list tok :=
  [TId "recid"; TP (PBin OAsg); TId (unpack_name drv m); TP PLpar; TP (PBin OAnd); TP PLpar; TId "_m"; TP PArrow; TId (g_name m); TP PRpar;
   TP PComma; TId "_d"; TP PComma; TId "dlc_"; TP PRpar; TP PSemi].

Lemma hexu_len : forall z, (z < 2 ^ 32)%Z -> (String.length (hexu (Z.to_N z)) <= 66)%nat.
Proof.
  intros z H. assert (E : (String.length (hexu (Z.to_N z)) = String.length (hexl (Z.to_N z)))%nat).
  { unfold hexu, hexl, print_base. generalize (S (N.to_nat (N.log2 (Z.to_N z)))) as f. intros f. 
    assert (X : forall f n a b, String.length a = String.length b -> String.length (digits_aux true 16 f n a) = String.length (digits_aux false 16 f n b)).
    { induction f0 as [|f0 IH]; intros n a b AB; cbn [digits_aux]; auto. destruct (n <? 16)%N; [|apply IH]; cbn [String.length]; now rewrite AB. }
    now apply X. }
  rewrite E. pose proof (px_len z ltac:(lia)) as L. unfold px in L. destruct (Z.eqb_spec z 0) as [->|N]; [cbn; lia|].
  cbn [String.append String.length] in L. lia.
Qed.
Lemma hexu_nonl : forall z, no_nl (hexu (Z.to_N z)) = true.
Proof. intros. apply no_nl_ident, hex_idchars. Qed.

Lemma eq_text : forall m, umsg_ok m -> id_eq_text m = "_id == 0x" ++ hexu (Z.to_N (g_id m)) ++ "U".
Proof. intros m (_ & _ & I). unfold id_eq_text. apply str_print_short. pose proof (hexu_len (g_id m) ltac:(lia)). rewrite !app_len. cbn [String.length]. lia. Qed.
Lemma rng_text : forall a b, umsg_ok a -> umsg_ok b ->
  id_range_text a b = "(_id >= 0x" ++ hexu (Z.to_N (g_id a)) ++ "U) && (_id < 0x" ++ hexu (Z.to_N (g_id b)) ++ "U)".
Proof.
  intros a b (_ & _ & I) (_ & _ & J). unfold id_range_text. apply str_print_short. pose proof (hexu_len (g_id a) ltac:(lia)). pose proof (hexu_len (g_id b) ltac:(lia)).
  rewrite !app_len. cbn [String.length]. lia.
Qed.
Lemma call_str : forall drv m, umsg_ok m -> (String.length drv <= 900)%nat ->
  call_text drv m = "recid = Unpack_" ++ g_name m ++ "_" ++ drv ++ "(&(_m->" ++ g_name m ++ "), _d, dlc_);".
Proof. intros drv m (_ & L & _) D. unfold call_text. apply str_print_short. rewrite !app_len. cbn [String.length]. lia. Qed.

Lemma hex_tok : forall z c r, (0 <= z < 2 ^ 32)%Z -> word_ends c = true ->
  lex_from LIdle (String "0" (String "x" (hexu (Z.to_N z) ++ String "U" (String c r)))) = TInt U32 z :: lex_from LIdle (String c r).
Proof.
  intros z c r Z E. unfold hexu. rewrite lex_hexU; [|lia|exact E]. now rewrite Z2N.id by lia.
Qed.

(** condition in front of ") {" *)
Lemma eq_lex : forall m r, umsg_ok m -> lex_from LIdle (id_eq_text m ++ ")" ++ r) = (eq_toks m ++ lex_from LIdle (")" ++ r))%list.
Proof.
  intros m r U. rewrite eq_text by exact U. destruct U as (_ & _ & I). rewrite !app_assoc.
  change ("_id == 0x" ++ hexu (Z.to_N (g_id m)) ++ "U" ++ ")" ++ r) with ("_id " ++ "== " ++ String "0" (String "x" (hexu (Z.to_N (g_id m)) ++ String "U" (String ")" r)))).
  lexrun ltac:(fail). rewrite hex_tok by (auto; lia). rewrite !(lex_idle_solo ")" PRpar) by reflexivity. reflexivity.
Qed.
Lemma rng_lex : forall a b r, umsg_ok a -> umsg_ok b ->
  lex_from LIdle (id_range_text a b ++ ")" ++ r) = (rng_toks a b ++ lex_from LIdle (")" ++ r))%list.
Proof.
  intros a b r UA UB. rewrite rng_text by assumption. destruct UA as (_ & _ & I). destruct UB as (_ & _ & J). rewrite !app_assoc.
  change ("(_id >= 0x" ++ hexu (Z.to_N (g_id a)) ++ "U) && (_id < 0x" ++ hexu (Z.to_N (g_id b)) ++ "U)" ++ ")" ++ r) with
    ("(_id " ++ ">= " ++ String "0" (String "x" (hexu (Z.to_N (g_id a)) ++ String "U" (String ")" (" && (_id < " ++ String "0" (String "x" (hexu (Z.to_N (g_id b)) ++ String "U" (String ")" (")" ++ r))))))))).
  lexrun ltac:(fail). rewrite hex_tok by (auto; lia).
  change (String ")" (" && (_id < " ++ String "0" (String "x" (hexu (Z.to_N (g_id b)) ++ String "U" (String ")" (")" ++ r)))))) with
    (") " ++ "&& (_id < " ++ String "0" (String "x" (hexu (Z.to_N (g_id b)) ++ String "U" (String ")" (")" ++ r))))).
  lexrun ltac:(fail). rewrite hex_tok by (auto; lia). change (")" ++ r) with (String ")" r). rewrite !(lex_idle_solo ")" PRpar) by reflexivity. reflexivity.
Qed.
Lemma unpack_ident : forall drv m, all_chars is_idchar drv = true -> is_ident (g_name m) = true -> is_ident (unpack_name drv m) = true.
Proof.
  intros drv m D N. unfold unpack_name. apply (ident_prefix "Unpack_"); [reflexivity|].
  rewrite all_chars_app, (ident_chars _ N). cbn. exact D.
Qed.
Lemma call_lex : forall drv m, umsg_ok m -> (String.length drv <= 900)%nat -> all_chars is_idchar drv = true -> lex (call_text drv m) = call_toks drv m.
Proof.
  intros drv m U L D. rewrite call_str by assumption. destruct U as (N & _ & _). pose proof (unpack_ident drv m D N) as IU. unfold lex.
  replace ("recid = Unpack_" ++ g_name m ++ "_" ++ drv ++ "(&(_m->" ++ g_name m ++ "), _d, dlc_);") with
    ("recid = " ++ (unpack_name drv m ++ ("(&(_m->" ++ (g_name m ++ ("), _d, dlc_);" ++ ""))))).
  2: { unfold unpack_name. rewrite !app_assoc. reflexivity. }
  lexrun ltac:(rewrite lex_ident' by auto). reflexivity.
Qed.

(** ** Statements *)

Definition eq_e (m : message) : expr := EBin OEq (EId "_id") (EInt U32 (g_id m)).
Definition rng_e (a b : message) : expr :=
  EBin OLand (EBin OGe (EId "_id") (EInt U32 (g_id a))) (EBin OLt (EId "_id") (EInt U32 (g_id b))).
Definition call_s (drv : string) (m : message) : stmt :=
  SExpr (EBin OAsg (EId "recid") (ECall (unpack_name drv m) (unpack_args m))).

Definition parses (ts : list tok) (st : stmt) : Prop := forall rs k u r, u <> TId "else" ->
  srun (KBlock rs :: k, MStmt) (ts ++ u :: r) = srun (KBlock (st :: rs) :: k, MStmt) (u :: r).
Definition cond_parse (ts : list tok) (e : expr) : Prop := forall k r, srun (k, MIfOpen) (TP PLpar :: ts ++ TP PRpar :: r) = srun (KIf e :: k, MStmt) r.

Lemma eq_parse : forall m, cond_parse (eq_toks m) (eq_e m).
Proof. intros m k r. reflexivity. Qed.
Lemma rng_parse : forall a b, cond_parse (rng_toks a b) (rng_e a b).
Proof. intros a b k r. reflexivity. Qed.

Lemma not_typename_unpack : forall drv m, is_typename (unpack_name drv m) = false.
Proof. reflexivity. Qed.
Lemma call_parses : forall drv m, parses (call_toks drv m) (call_s drv m).
Proof. intros drv m rs k u r U. reflexivity. Qed.

Lemma after_if : forall e s rs k u r, u <> TId "else" ->
  srun (KBlock rs :: k, MIfDone e s) (u :: r) = srun (KBlock (SIf e s None :: rs) :: k, MStmt) (u :: r).
Proof.
  intros e s rs k u r U. cbn [srun]. unfold sstep. destruct u as [x|t z|f|p|]; try reflexivity.
  destruct (String.eqb_spec x "else"); [congruence|reflexivity].
Qed.
Lemma after_else_if : forall e s e0 s0 rs k u r, u <> TId "else" ->
  srun (KElse e0 s0 :: KBlock rs :: k, MIfDone e s) (u :: r) = srun (KBlock (SIf e0 s0 (Some (SIf e s None)) :: rs) :: k, MStmt) (u :: r).
Proof.
  intros e s e0 s0 rs k u r U. cbn [srun]. unfold sstep. destruct u as [x|t z|f|p|]; try reflexivity.
  destruct (String.eqb_spec x "else"); [congruence|reflexivity].
Qed.

Lemma if_parses : forall c e a sa, cond_parse c e -> parses a sa ->
  parses ([TId "if"; TP PLpar] ++ c ++ [TP PRpar; TP PLbrace] ++ a ++ [TP PRbrace]) (SIf e (SBlock [sa]) None).
Proof.
  intros c e a sa C A rs k u r U. rewrite <- !List.app_assoc. cbn [List.app].
  change (srun (KBlock rs :: k, MStmt) (TId "if" :: TP PLpar :: c ++ TP PRpar :: TP PLbrace :: a ++ TP PRbrace :: u :: r))
    with (srun (KBlock rs :: k, MIfOpen) (TP PLpar :: c ++ TP PRpar :: TP PLbrace :: a ++ TP PRbrace :: u :: r)).
  rewrite C. change (srun (KIf e :: KBlock rs :: k, MStmt) (TP PLbrace :: a ++ TP PRbrace :: u :: r)) with
    (srun (KBlock [] :: KIf e :: KBlock rs :: k, MStmt) (a ++ TP PRbrace :: u :: r)).
  rewrite A by discriminate.
  change (srun (KBlock [sa] :: KIf e :: KBlock rs :: k, MStmt) (TP PRbrace :: u :: r)) with (srun (KBlock rs :: k, MIfDone e (SBlock [sa])) (u :: r)).
  now apply after_if.
Qed.
Lemma if_else_parses : forall c e a sa b sb, cond_parse c e -> parses a sa -> parses b sb ->
  parses ([TId "if"; TP PLpar] ++ c ++ [TP PRpar; TP PLbrace] ++ a ++ [TP PRbrace; TId "else"; TP PLbrace] ++ b ++ [TP PRbrace])
    (SIf e (SBlock [sa]) (Some (SBlock [sb]))).
Proof.
  intros c e a sa b sb C A B rs k u r U. rewrite <- !List.app_assoc. cbn [List.app].
  change (srun (KBlock rs :: k, MStmt) (TId "if" :: ?x)) with (srun (KBlock rs :: k, MIfOpen) x).
  rewrite C. change (srun (KIf e :: KBlock rs :: k, MStmt) (TP PLbrace :: ?x)) with (srun (KBlock [] :: KIf e :: KBlock rs :: k, MStmt) x).
  rewrite A by discriminate.
  change (srun (KBlock [sa] :: KIf e :: KBlock rs :: k, MStmt) (TP PRbrace :: TId "else" :: TP PLbrace :: ?x)) with
    (srun (KBlock [] :: KElse e (SBlock [sa]) :: KBlock rs :: k, MStmt) x).
  rewrite B by discriminate. reflexivity.
Qed.
Lemma else_if_parses : forall c e a sa c2 e2 b sb, cond_parse c e -> parses a sa -> cond_parse c2 e2 -> parses b sb ->
  parses ([TId "if"; TP PLpar] ++ c ++ [TP PRpar; TP PLbrace] ++ a ++ [TP PRbrace; TId "else"; TId "if"; TP PLpar] ++ c2 ++ [TP PRpar; TP PLbrace] ++ b ++ [TP PRbrace])
    (SIf e (SBlock [sa]) (Some (SIf e2 (SBlock [sb]) None))).
Proof.
  intros c e a sa c2 e2 b sb C A C2 B rs k u r U. rewrite <- !List.app_assoc. cbn [List.app].
  change (srun (KBlock rs :: k, MStmt) (TId "if" :: ?x)) with (srun (KBlock rs :: k, MIfOpen) x).
  rewrite C. change (srun (KIf e :: KBlock rs :: k, MStmt) (TP PLbrace :: ?x)) with (srun (KBlock [] :: KIf e :: KBlock rs :: k, MStmt) x).
  rewrite A by discriminate.
  change (srun (KBlock [sa] :: KIf e :: KBlock rs :: k, MStmt) (TP PRbrace :: TId "else" :: TId "if" :: ?x)) with
    (srun (KElse e (SBlock [sa]) :: KBlock rs :: k, MIfOpen) x).
  rewrite C2. change (srun (KIf e2 :: ?k, MStmt) (TP PLbrace :: ?x)) with (srun (KBlock [] :: KIf e2 :: k, MStmt) x).
  rewrite B by discriminate.
  change (srun (KBlock [sb] :: KIf e2 :: ?k, MStmt) (TP PRbrace :: ?x)) with (srun (k, MIfDone e2 (SBlock [sb])) x).
  now apply after_else_if.
Qed.

(** ** Lines of code *)

Lemma yp_join : forall M a b ta tb, ypart M [a] ta -> ypart M [b] tb -> ypart M [(a ++ b)%string] (ta ++ tb).
Proof.
  intros M a b ta tb A B. destruct (yp_cons M a [b] ta tb A B) as (ls & P & Y). exists ls. split; [|exact Y].
  intros r. specialize (P r). cbn [sconcat] in *. rewrite !app_nil_r in *. exact P.
Qed.
Lemma yp_empty : forall M, ypart M [""] [].
Proof. intros M. exists []. split; [intros r; reflexivity|apply yields_nil]. Qed.
Lemma yp_code : forall M i s, no_nl s = true -> ypart M [print_code (S i) s] (lex s).
Proof.
  intros M i s N. unfold print_code.
  assert (LX : lex (repeat_char (S i) " " ++ s) = lex s) by apply lex_repeat.
  assert (NN : no_nl (repeat_char (S i) " " ++ s) = true).
  { rewrite no_nl_app, N, andb_true_r. clear. induction (S i) as [|n IH]; [reflexivity|]. cbn [repeat_char]. unfold no_nl in *. cbn [has_char].
    destruct (has_char NL (repeat_char n " ")); [discriminate|reflexivity]. }
  exists [(repeat_char (S i) " " ++ s)%string]. split; [|rewrite <- LX; apply yields_line; reflexivity].
  intros r. cbn [sconcat]. rewrite app_nil_r. rewrite <- app_assoc. rewrite app_assoc. change (nl ++ r) with (String NL r). now rewrite lines_line.
Qed.

(** the tree's text and its statement *)
Definition codes (t : ctree) (st : stmt) : Prop := exists ts, parses ts st /\ forall i M, ypart M [write_code (S i) t] ts.
Definition cond_text (s : string) (e : expr) : Prop := (String.length s <= 1000)%nat /\ no_nl s = true /\
  exists ts, cond_parse ts e /\ forall r, lex_from LIdle (s ++ ")" ++ r) = (ts ++ lex_from LIdle (")" ++ r))%list.

Lemma eq_cond : forall m, umsg_ok m -> cond_text (id_eq_text m) (eq_e m).
Proof.
  intros m U. split; [|split].
  - rewrite eq_text by exact U. destruct U as (_ & _ & I). pose proof (hexu_len (g_id m) ltac:(lia)). rewrite !app_len. cbn [String.length]. lia.
  - rewrite eq_text by exact U. rewrite !no_nl_app, hexu_nonl. reflexivity.
  - exists (eq_toks m). split; [apply eq_parse|]. intros r. now apply eq_lex.
Qed.
Lemma rng_cond : forall a b, umsg_ok a -> umsg_ok b -> cond_text (id_range_text a b) (rng_e a b).
Proof.
  intros a b UA UB. split; [|split].
  - rewrite rng_text by assumption. destruct UA as (_ & _ & I). destruct UB as (_ & _ & J). pose proof (hexu_len (g_id a) ltac:(lia)). pose proof (hexu_len (g_id b) ltac:(lia)).
    rewrite !app_len. cbn [String.length]. lia.
  - rewrite rng_text by assumption. rewrite !no_nl_app, !hexu_nonl. reflexivity.
  - exists (rng_toks a b). split; [apply rng_parse|]. intros r. now apply rng_lex.
Qed.

Lemma if_line : forall s ts, (String.length s <= 1000)%nat -> no_nl s = true ->
  (forall r, lex_from LIdle (s ++ ")" ++ r) = (ts ++ lex_from LIdle (")" ++ r))%list) ->
  forall i M, ypart M [print_code (S i) (str_print ("if (" ++ s ++ ") {"))] ([TId "if"; TP PLpar] ++ ts ++ [TP PRpar; TP PLbrace]).
Proof.
  intros s ts L N LX i M. rewrite str_print_short by (rewrite !app_len; cbn [String.length]; lia).
  replace ([TId "if"; TP PLpar] ++ ts ++ [TP PRpar; TP PLbrace])%list with (lex ("if (" ++ s ++ ") {")).
  - apply yp_code. rewrite !no_nl_app, N. reflexivity.
  - unfold lex. change ("if (" ++ s ++ ") {") with ("if " ++ "(" ++ s ++ ") {"). lexrun ltac:(fail).
    change (") {") with (")" ++ " {"). rewrite LX. reflexivity.
Qed.
Lemma else_if_line : forall s ts, (String.length s <= 1000)%nat -> no_nl s = true ->
  (forall r, lex_from LIdle (s ++ ")" ++ r) = (ts ++ lex_from LIdle (")" ++ r))%list) ->
  forall i M, ypart M [print_code (S i) (str_print ("} else if (" ++ s ++ ") {"))] ([TP PRbrace; TId "else"; TId "if"; TP PLpar] ++ ts ++ [TP PRpar; TP PLbrace]).
Proof.
  intros s ts L N LX i M. rewrite str_print_short by (rewrite !app_len; cbn [String.length]; lia).
  replace ([TP PRbrace; TId "else"; TId "if"; TP PLpar] ++ ts ++ [TP PRpar; TP PLbrace])%list with (lex ("} else if (" ++ s ++ ") {")).
  - apply yp_code. rewrite !no_nl_app, N. reflexivity.
  - unfold lex. change ("} else if (" ++ s ++ ") {") with ("} else if " ++ "(" ++ s ++ ") {"). lexrun ltac:(fail).
    change (") {") with (")" ++ " {"). rewrite LX. reflexivity.
Qed.

Lemma body_codes : forall drv m i M, umsg_ok m -> (String.length drv <= 900)%nat -> all_chars is_idchar drv = true ->
  ypart M [print_code (S i) (str_print (call_text drv m))] (call_toks drv m).
Proof.
  intros drv m i M U L D. rewrite str_print_short.
  - rewrite <- call_lex by assumption. apply yp_code. rewrite call_str by assumption. destruct U as (N & _ & _).
    rewrite !no_nl_app, (no_nl_ident _ (ident_chars _ N)), (no_nl_ident _ D). reflexivity.
  - rewrite call_str by assumption. destruct U as (_ & N & _). rewrite !app_len. cbn [String.length]. lia.
Qed.

(** what a (sub)tree looks like: the statement, and whether it goes below an "else if" *)
Definition low_form (drv : string) (t : ctree) (st : stmt) (fin : stmt) : Prop :=
  match t with
  | CExpress c b => exists e, cond_text c e /\ fin = SIf e (SBlock [st]) None
  | _ => fin = SBlock [st]
  end.

Lemma cond_codes : forall drv c e th sh tl sl fin, cond_text c e -> codes th sh -> codes tl sl -> low_form drv tl sl fin ->
  codes (CCond c (Some th) (Some tl)) (SIf e (SBlock [sh]) (Some fin)).
Proof.
  intros drv c e th sh tl sl fin (LC & NC & tc & PC & XC) (ta & PA & YA) (tb & PB & YB) LF.
  assert (REST : forall i M x tx, ypart M [print_code (S i) x] tx ->
    ypart M [(print_code (S i) (str_print ("if (" ++ c ++ ") {")) ++ write_code (S (S i)) th ++ print_code (S i) x ++ write_code (S (S i)) tl ++ print_code (S i) "}")%string]
      (([TId "if"; TP PLpar] ++ tc ++ [TP PRpar; TP PLbrace]) ++ ta ++ tx ++ tb ++ [TP PRbrace])).
  { intros i M x tx X. apply yp_join; [now apply if_line|]. apply yp_join; [apply YA|]. apply yp_join; [exact X|].
    apply yp_join; [apply YB|]. change [TP PRbrace] with (lex "}"). now apply yp_code. }
  destruct tl as [cl hl ll|cl bl|bl]; cbn [low_form] in LF.
  - subst fin. eexists. split; [apply (if_else_parses tc e ta sh tb sl); eassumption|].
    intros i M. cbn [write_code]. specialize (REST i M "} else {" (lex "} else {")). rewrite <- !List.app_assoc in *. apply REST. now apply yp_code.
  - destruct LF as (e2 & (L2 & N2 & t2 & P2 & X2) & ->). eexists. split; [apply (else_if_parses tc e ta sh t2 e2 tb sl); eassumption|].
    intros i M. cbn [write_code]. specialize (REST i M (str_print ("} else if (" ++ cl ++ ") {")) _ (else_if_line cl t2 L2 N2 X2 i M)).
    rewrite <- !List.app_assoc in *. exact REST.
  - subst fin. eexists. split; [apply (if_else_parses tc e ta sh tb sl); eassumption|].
    intros i M. cbn [write_code]. specialize (REST i M "} else {" (lex "} else {")). rewrite <- !List.app_assoc in *. apply REST. now apply yp_code.
Qed.
Lemma single_codes : forall drv c e m, cond_text c e -> umsg_ok m -> (String.length drv <= 900)%nat -> all_chars is_idchar drv = true ->
  codes (CCond c (Some (CSingle (call_text drv m))) None) (SIf e (SBlock [call_s drv m]) None).
Proof.
  intros drv c e m (LC & NC & tc & PC & XC) U L D. eexists. split; [apply (if_parses tc e (call_toks drv m)); [exact PC|apply call_parses]|].
  intros i M. cbn [write_code]. 
  replace ([TId "if"; TP PLpar] ++ tc ++ [TP PRpar; TP PLbrace] ++ call_toks drv m ++ [TP PRbrace])%list with
    (([TId "if"; TP PLpar] ++ tc ++ [TP PRpar; TP PLbrace]) ++ (call_toks drv m ++ [TP PRbrace]))%list by now rewrite <- !List.app_assoc.
  apply yp_join; [now apply if_line|]. apply yp_join; [now apply body_codes|]. change [TP PRbrace] with (lex "}"). now apply yp_code.
Qed.

(** ** Meaning *)

Section Meaning.
Variable (n : nat) (C : ctx) (drv : string).
Hypothesis Mid : lookup "_id" (c_macros C) = None.

(** [st] calls for the messages [lo .. hi-1] of [l] *)
Definition dispatches (l : list message) (lo hi : nat) (st : stmt) : Prop :=
  forall m i, m_scal m "_id" = Some (LInt U32, VI U32 i) -> (0 <= i < 2 ^ 32)%Z ->
    (forall j, (lo <= j < hi)%nat -> g_id (nth j l no_message) = i -> exec n C m st = exec n C m (call_s drv (nth j l no_message))) /\
    ((forall j, (lo <= j < hi)%nat -> g_id (nth j l no_message) <> i) -> exec n C m st = Ok (m, None)).

Lemma exec_block1 : forall m s, exec n C m (SBlock [s]) = exec n C m s.
Proof. intros m s. cbn [exec]. destruct (exec n C m s) as [[m' [v|]]| |]; reflexivity. Qed.
Lemma eval_id : forall m i, m_scal m "_id" = Some (LInt U32, VI U32 i) -> eval n C m [] (EId "_id") = Ok (VI U32 i).
Proof. intros m i E. destruct n; cbn [eval lookup]; rewrite Mid, E; reflexivity. Qed.
Lemma eval_bin : forall m o a b, o <> OLand -> o <> OLor -> eval n C m [] (EBin o a b) = (do v <- eval n C m [] a; do w <- eval n C m [] b; bin_val o v w).
Proof. intros m o a b A B. destruct n; destruct o; try congruence; reflexivity. Qed.
Lemma eval_land : forall m a b, eval n C m [] (EBin OLand a b) =
  (do v <- eval n C m [] a; if truth v then do w <- eval n C m [] b; Ok (vbool (truth w)) else Ok (vbool false)).
Proof. intros m a b. destruct n; reflexivity. Qed.
Lemma eval_int : forall m t z, eval n C m [] (EInt t z) = Ok (VI t z).
Proof. intros m t z. destruct n; reflexivity. Qed.

Lemma cmp_val : forall o i z, (0 <= i < 2 ^ 32)%Z -> (0 <= z < 2 ^ 32)%Z -> In o [OEq; OGe; OLt] ->
  bin_val o (VI U32 i) (VI U32 z) = Ok (vbool (match o with OEq => i =? z | OGe => z <=? i | _ => i <? z end)%Z).
Proof.
  intros o i z I Z O. unfold bin_val. 
  assert (CV : forall x, (0 <= x < 2 ^ 32)%Z -> conv (usual U32 U32) x = x) by (intros x X; change (usual U32 U32) with U32; apply conv_small; [reflexivity|exact X]).
  destruct O as [<-|[<-|[<-|[]]]]; unfold int_op; rewrite !CV by assumption; reflexivity.
Qed.
Lemma truth_vbool : forall b, truth (vbool b) = b.
Proof. intros []; reflexivity. Qed.

Lemma eval_eq : forall m i x, m_scal m "_id" = Some (LInt U32, VI U32 i) -> (0 <= i < 2 ^ 32)%Z -> (0 <= g_id x < 2 ^ 32)%Z ->
  eval n C m [] (eq_e x) = Ok (vbool (i =? g_id x)%Z).
Proof.
  intros m i x E I X. unfold eq_e. rewrite eval_bin by discriminate. rewrite (eval_id m i E), eval_int. cbn [bind]. rewrite cmp_val; auto. cbn; auto.
Qed.
Lemma eval_rng : forall m i a b, m_scal m "_id" = Some (LInt U32, VI U32 i) -> (0 <= i < 2 ^ 32)%Z -> (0 <= g_id a < 2 ^ 32)%Z -> (0 <= g_id b < 2 ^ 32)%Z ->
  eval n C m [] (rng_e a b) = Ok (vbool ((g_id a <=? i) && (i <? g_id b))%Z).
Proof.
  intros m i a b E I A B. unfold rng_e. rewrite eval_land, !eval_bin by discriminate. rewrite (eval_id m i E), !eval_int. cbn [bind].
  rewrite !cmp_val by (auto; cbn; auto). cbn [bind]. rewrite !truth_vbool. destruct (g_id a <=? i)%Z; cbn [bind andb]; rewrite ?truth_vbool; reflexivity.
Qed.

Lemma exec_if : forall m e s1 s2 b, eval n C m [] e = Ok (vbool b) ->
  exec n C m (SIf e (SBlock [s1]) s2) = if b then exec n C m s1 else match s2 with Some s => exec n C m s | None => Ok (m, None) end.
Proof. intros m e s1 s2 b E. cbn [exec]. rewrite E. cbn [bind]. rewrite truth_vbool. destruct b; [exact (exec_block1 m s1)|reflexivity]. Qed.

End Meaning.

Section Tree.
Variable (drv : string).
Definition disp_all (l : list message) (lo hi : nat) (st : stmt) : Prop := forall n C, lookup "_id" (c_macros C) = None -> dispatches n C drv l lo hi st.
Variable (l : list message).
Hypothesis Ids : forall i j, (i < j < List.length l)%nat -> (g_id (nth i l no_message) < g_id (nth j l no_message))%Z.
Hypothesis Oks : forall m, In m l -> umsg_ok m.
Hypothesis Dlen : (String.length drv <= 900)%nat.
Hypothesis Dchars : all_chars is_idchar drv = true.
Notation at_ j := (nth j l no_message).

Lemma at_ok : forall j, (j < List.length l)%nat -> umsg_ok (at_ j).
Proof. intros j J. apply Oks, nth_In, J. Qed.
Lemma disp_block : forall lo hi st, disp_all l lo hi st -> disp_all l lo hi (SBlock [st]).
Proof. intros lo hi st D n C Mid m i E I. rewrite exec_block1. now apply (D n C Mid). Qed.

Lemma tree_ok : forall fuel lo hi, (lo < hi <= List.length l)%nat -> (hi - lo <= fuel)%nat ->
  exists t st fin, fill_tree fuel drv l lo hi true = Some t /\ codes t st /\ low_form drv t st fin /\ disp_all l lo hi fin /\
    if (hi - lo =? 1)%nat then st = call_s drv (at_ lo) else disp_all l lo hi st.
Proof.
  induction fuel as [|f IH]; intros lo hi LH F; [lia|]. cbn [fill_tree].
  replace (hi <? 1)%nat with false by lia. cbn [negb andb].
  pose proof (at_ok lo ltac:(lia)) as UL. pose proof (proj2 (proj2 UL)) as IL.
  destruct (Nat.ltb_spec 1 (hi - lo)) as [S1|S1].
  - assert (HALF : (1 <= Nat.div2 (hi - lo) /\ Nat.div2 (hi - lo) < hi - lo)%nat).
    { pose proof (Nat.div2_odd (hi - lo)) as O. pose proof (Nat.lt_div2 (hi - lo) ltac:(lia)). destruct (Nat.odd (hi - lo)); cbn [Nat.b2n] in O; lia. }
    set (h := Nat.div2 (hi - lo)) in *. clearbody h.
    destruct (IH lo (lo + h)%nat ltac:(lia) ltac:(lia)) as (th & sh & fh & EH & CH & _ & _ & DH).
    destruct (IH (lo + h)%nat hi ltac:(lia) ltac:(lia)) as (tl & sl & fl & EL & CL & LL & DL & _).
    pose proof (at_ok (lo + h)%nat ltac:(lia)) as UH. pose proof (proj2 (proj2 UH)) as IH'.
    rewrite EH, EL. replace (lo + h - lo)%nat with h in DH by lia.
    assert (X : exists e, cond_text (if (1 <? h)%nat then id_range_text (at_ lo) (at_ (lo + h)) else id_eq_text (at_ lo)) e /\
      disp_all l lo hi (SIf e (SBlock [sh]) (Some fl))).
    { destruct (Nat.ltb_spec 1 h) as [H1|H1].
      - exists (rng_e (at_ lo) (at_ (lo + h))). split; [now apply rng_cond|]. replace (h =? 1)%nat with false in DH by lia.
        intros n C Mid m i E I. rewrite (exec_if n C m _ _ _ _ (eval_rng n C Mid m i _ _ E I IL IH')). destruct (DH n C Mid m i E I) as [DH1 DH2]. destruct (DL n C Mid m i E I) as [DL1 DL2]. split.
        + intros j J G. destruct (Nat.lt_ge_cases j (lo + h)) as [JL|JL].
          * pose proof (Ids j (lo + h) ltac:(lia)). assert (j = lo \/ lo < j)%nat as [->|K] by lia.
            -- replace ((g_id (at_ lo) <=? i)%Z && (i <? g_id (at_ (lo + h)))%Z) with true by lia. apply DH1; [lia|exact G].
            -- pose proof (Ids lo j ltac:(lia)). replace ((g_id (at_ lo) <=? i)%Z && (i <? g_id (at_ (lo + h)))%Z) with true by lia. apply DH1; [lia|exact G].
          * assert (j = (lo + h) \/ lo + h < j)%nat as [->|K] by lia.
            -- replace ((g_id (at_ lo) <=? i)%Z && (i <? g_id (at_ (lo + h)))%Z) with false by lia. apply DL1; [lia|exact G].
            -- pose proof (Ids (lo + h)%nat j ltac:(lia)). replace ((g_id (at_ lo) <=? i)%Z && (i <? g_id (at_ (lo + h)))%Z) with false by lia. apply DL1; [lia|exact G].
        + intros NO. destruct ((g_id (at_ lo) <=? i)%Z && (i <? g_id (at_ (lo + h)))%Z); [apply DH2|apply DL2]; intros j J; apply NO; lia.
      - assert (h = 1%nat) by lia. subst h. cbn [Nat.eqb] in DH. subst sh.
        exists (eq_e (at_ lo)). split; [now apply eq_cond|].
        intros n C Mid m i E I. rewrite (exec_if n C m _ _ _ _ (eval_eq n C Mid m i _ E I IL)). destruct (DL n C Mid m i E I) as [DL1 DL2]. split.
        + intros j J G. assert (j = lo \/ lo + 1 <= j)%nat as [->|K] by lia.
          * now replace (i =? g_id (at_ lo))%Z with true by lia.
          * pose proof (Ids lo j ltac:(lia)). replace (i =? g_id (at_ lo))%Z with false by lia. apply DL1; [lia|exact G].
        + intros NO. pose proof (NO lo ltac:(lia)). replace (i =? g_id (at_ lo))%Z with false by lia. apply DL2. intros j J; apply NO; lia. }
    destruct X as (e & CE & D). exists (CCond (if (1 <? h)%nat then id_range_text (at_ lo) (at_ (lo + h)) else id_eq_text (at_ lo)) (Some th) (Some tl)),
      (SIf e (SBlock [sh]) (Some fl)), (SBlock [SIf e (SBlock [sh]) (Some fl)]).
    split; [reflexivity|]. split; [eapply cond_codes; eassumption|]. split; [reflexivity|]. split; [now apply disp_block|].
    replace (hi - lo =? 1)%nat with false by lia. exact D.
  - assert (hi = S lo) by lia. subst hi. replace (S lo - lo =? 1)%nat with true by lia.
    exists (CExpress (id_eq_text (at_ lo)) (call_text drv (at_ lo))), (call_s drv (at_ lo)), (SIf (eq_e (at_ lo)) (SBlock [call_s drv (at_ lo)]) None).
    split; [reflexivity|]. split; [|split; [|split]].
    + exists (call_toks drv (at_ lo)). split; [apply call_parses|]. intros i M. cbn [write_code]. now apply body_codes.
    + cbn [low_form]. exists (eq_e (at_ lo)). split; [now apply eq_cond|reflexivity].
    + intros n C Mid m i E I. rewrite (exec_if n C m _ _ _ _ (eval_eq n C Mid m i _ E I IL)). split.
      * intros j J G. assert (j = lo) by lia. subst j. now replace (i =? g_id (at_ lo))%Z with true by lia.
      * intros NO. pose proof (NO lo ltac:(lia)). now replace (i =? g_id (at_ lo))%Z with false by lia.
    + reflexivity.
Qed.

Lemma tree_any : l <> [] -> exists t st, fill_tree (S (List.length l)) drv l 0 (List.length l) false = Some t /\ codes t st /\ disp_all l 0 (List.length l) st.
Proof.
  intros NE. pose proof (tree_ok (S (List.length l)) 0 (List.length l)) as T.
  assert (L : (0 < List.length l)%nat) by (destruct l; [congruence|cbn; lia]).
  destruct (Nat.eq_dec (List.length l) 1) as [E|E].
  - pose proof (at_ok 0%nat L) as U. pose proof (proj2 (proj2 U)) as IL.
    exists (CCond (id_eq_text (at_ 0%nat)) (Some (CSingle (call_text drv (at_ 0%nat)))) None), (SIf (eq_e (at_ 0%nat)) (SBlock [call_s drv (at_ 0%nat)]) None).
    rewrite E. split; [reflexivity|]. split; [apply single_codes; auto; now apply eq_cond|].
    intros n C Mid m i Ei I. rewrite (exec_if n C m _ _ _ _ (eval_eq n C Mid m i _ Ei I IL)). split.
    + intros j J G. assert (j = 0%nat) by lia. subst j. now replace (i =? g_id (at_ 0%nat))%Z with true by lia.
    + intros NO. pose proof (NO 0%nat ltac:(lia)). now replace (i =? g_id (at_ 0%nat))%Z with false by lia.
  - destruct (T ltac:(lia) ltac:(lia)) as (t & st & fin & EF & C' & _ & _ & D). replace (List.length l - 0 =? 1)%nat with false in D by lia.
    exists t, st. split; [|split; [exact C'|exact D]].
    rewrite <- EF. cbn [fill_tree]. replace (List.length l <? 1)%nat with false by lia. replace (List.length l =? 1)%nat with false by lia. reflexivity.
Qed.
End Tree.
