(** Concrete programs with monitors, rolling counter and checksum. *)

From Coq Require Import ZArith NArith List String Ascii Bool Lia ZifyBool.
From Verif Require Import Base Dbl CSyntax CSem CSemLemmas CRun Types Formatter Settings MainGen Scanner App CodecSpec MsgSpec UnpackFun DriverSpec HeaderSpec CodecEnv CodecThms CodecFacts Concrete Samples MonSpec.
Import ListNotations.
Open Scope Z_scope.

(** functions of an application: the tick, a hash of the payload, an empty FMon function *)
Definition app_user (tick : Z) (hash : list Z -> Z) : string -> option (list arg -> res cval) :=
  fun f => if String.eqb f "GetSystemTick" then Some (fun _ => Ok (VI U32 tick))
           else if String.eqb f "GetFrameHash"
           then Some (fun l => match l with AArr d :: _ => Ok (VI U32 (hash d)) | _ => UB "hash" end)
           else None.
Definition app_calls (fmon : string) : string -> option (list expr -> mem -> res (mem * cval)) :=
  fun f => if String.eqb f fmon then Some (fun _ m => Ok (no_hook m, VI I32 0)) else None.
Definition on (x : string) : string * macro := (x, {| m_params := None; m_body := [] |}).
(** #define GetFrameHash GetFrameHash, else the source replaces it by 0u *)
Definition itself (x : string) : string * macro := (x, {| m_params := None; m_body := [TId x] |}).
Definition app_conf : list (string * macro) := [itself "GetSystemTick"; itself "GetFrameHash"; on "DRV_USE_DIAG_MONITORS"; on "DRV_AUTO_ROLL"; on "DRV_AUTO_CSM"]%string.
Definition app_env (d : dbclist) (h c : string) (fmon : string) (tick : Z) (hash : list Z -> Z) : env :=
  the_env 0 "drv" d h c app_conf (app_user tick hash) (app_calls fmon).

(** what a program must look like for these functions to be found *)
Definition not_fun (x : string) (M : list (string * macro)) : bool :=
  match lookup x M with Some {| m_params := Some _; m_body := _ |} => false | _ => true end.
Lemma eval_user : forall n c m f args g, not_fun f (c_macros c) = true -> c_funs c f = Some g ->
  eval n c m [] (ECall f args) = do vs <- eval_args n c m [] args; g vs.
Proof.
  intros n c m f args g N F. rewrite eval_call. destruct (eval_args n c m [] args); [|reflexivity|reflexivity]. cbn [bind].
  unfold not_fun in N. destruct (lookup f (c_macros c)) as [[[ps|] b]|]; try discriminate; now rewrite F.
Qed.
Definition app_okb (e : env) : bool :=
  not_fun "GetSystemTick" (e_macros e) && not_fun "GetFrameHash" (e_macros e) &&
  match find_fun "GetSystemTick" (u_funs (e_unit e)), find_fun "GetFrameHash" (u_funs (e_unit e)) with None, None => true | _, _ => false end.

Lemma app_tick : forall e tick hash, app_okb e = true -> e_user e = app_user tick hash -> e_calls e "GetSystemTick" = None ->
  0 <= tick < 2 ^ 32 -> tick_ok (e_evals e) (e_ctx e) tick.
Proof.
  intros e tick hash H U C B. unfold app_okb in H.
  splitb H. rename H into L1, H1 into L2.
  destruct (find_fun "GetSystemTick" _) eqn:F1; [discriminate|]. destruct (find_fun "GetFrameHash" _) eqn:F2; [discriminate|].
  split; [exact C|]. split; [exact B|]. intros m. exists U32.
  rewrite (eval_user _ _ _ _ _ (fun _ => Ok (VI U32 tick))).
  - reflexivity.
  - exact L1.
  - cbn [e_ctx unit_ctx c_funs]. rewrite F1, U. reflexivity.
Qed.

Lemma app_hash : forall e msg tick hash p arr, program e -> In msg (d_msgs (e_db e)) -> app_okb e = true ->
  e_user e = app_user tick hash -> e_calls e "GetFrameHash" = None ->
  lookup (g_csmmethod msg) (e_macros e) = None -> g_csmmethod msg <> p ->
  (g_name msg ++ "_DLC")%string <> p -> (g_name msg ++ "_CANID")%string <> p ->
  match arr with EId x => x = p | EFld _ _ _ => path arr = Some p | _ => False end ->
  hash_ok (e_evals e) (e_ctx e) msg arr p hash.
Proof.
  intros e msg tick hash p arr P I H U C LM NM ND NC AR. pose proof (program_ids e msg P I) as [ID1 ID2 _]. unfold app_okb in H.
  splitb H. rename H into L1, H1 into L2.
  destruct (find_fun "GetSystemTick" _) eqn:F1; [discriminate|]. destruct (find_fun "GetFrameHash" _) eqn:F2; [discriminate|].
  split; [exact C|]. intros m d [A1 A2] SM. exists U32.
  rewrite (eval_user _ _ _ _ _ (fun l => match l with AArr d :: _ => Ok (VI U32 (hash d)) | _ => UB "hash" end));
    [|exact L2|cbn [e_ctx unit_ctx c_funs]; rewrite F2, U; reflexivity].
  assert (AE : eval_arg (e_evals e) (e_ctx e) m [] arr = Ok (AArr d)).
  { destruct arr; try contradiction; cbn [eval_arg]; [subst; now rewrite A1|]. rewrite AR, A1. reflexivity. }
  assert (CE : forall x v, x <> p -> const_macro (e_macros e) x v -> eval_arg (e_evals e) (e_ctx e) m [] (EId x) = Ok (AVal (VI U32 v))).
  { intros x v N CM. cbn [eval_arg]. rewrite (A2 x N). cbn [lookup].
    assert (EV : eval (e_evals e) (e_ctx e) m [] (EId x) = Ok (VI U32 v)) by (apply const_eval; exact CM).
    destruct CM as (b & LB & _). change (c_macros (e_ctx e)) with (e_macros e). rewrite LB, EV. reflexivity. }
  cbn [eval_args]. rewrite AE. cbn [bind]. rewrite (CE _ _ ND ID1). cbn [bind]. rewrite (CE _ _ NC ID2). cbn [bind].
  assert (ME : eval_arg (e_evals e) (e_ctx e) m [] (EId (g_csmmethod msg)) = Ok (ASym (g_csmmethod msg))).
  { cbn [eval_arg]. rewrite (A2 _ NM). cbn [lookup]. change (c_macros (e_ctx e)) with (e_macros e). rewrite LM, SM. reflexivity. }
  rewrite ME. cbn [bind eval_arg]. rewrite eval_int. reflexivity.
Qed.

(** memory of the receiver *)
Definition monitor_of (cnt roll csm : Z) : list (string * (lty * cval)) :=
  [(mon_path "frame_cnt", (LInt U32, VI U32 cnt)); (mon_path "last_cycle", (LInt U32, VI U32 0));
   (mon_path "roll_error", (LBits U32 1, VI I32 roll)); (mon_path "csm_error", (LBits U32 1, VI I32 csm));
   (mon_path "dlc_error", (LBits U32 1, VI I32 0))].
Definition has_monitorb (m : mem) : bool :=
  has_typeb m (mon_path "frame_cnt") (LInt U32) && has_typeb m (mon_path "last_cycle") (LInt U32) &&
  has_typeb m (mon_path "roll_error") (LBits U32 1) && has_typeb m (mon_path "csm_error") (LBits U32 1) &&
  has_typeb m (mon_path "dlc_error") (LBits U32 1).
Lemma has_monitorb_ok : forall m, has_monitorb m = true -> has_monitor m.
Proof. intros m H. unfold has_monitorb in H. splitb H. constructor; now apply has_typeb_ok. Qed.

(** the application puts a received frame where Unpack finds it *)
Definition deliver (d : list Z) (dl : Z) (m : mem) : mem :=
  {| m_scal := fun q => if String.eqb q "dlc_" then Some (LInt U8, VI U8 dl) else m_scal m q;
     m_arr := fun q => if String.eqb q "_d" then Some d else None |}.
Lemma deliver_payload : forall d dl m msg, payloadb msg d = true -> payload (deliver d dl m) "_d" msg d.
Proof.
  intros d dl m msg H. apply (payloadb_ok [] "_d") in H. destruct H as ([A B] & C & D). split; [split|split]; auto.
Qed.
Lemma deliver_kept : forall d dl m msg, monitor_kept msg m (deliver d dl m).
Proof.
  intros d dl m msg. split.
  - intros q (f & ->). cbn [deliver m_scal]. destruct (String.eqb_spec (mon_path f) "dlc_"); [discriminate|reflexivity].
  - intros sg _. cbn [deliver m_scal]. destruct (String.eqb_spec (expected sg) "dlc_"); [discriminate|reflexivity].
Qed.

Definition nameb (x p : string) : bool := negb (String.eqb x p).
Lemma nameb_ok : forall x p, nameb x p = true -> x <> p.
Proof. intros x p H E. unfold nameb in H. rewrite E, String.eqb_refl in H. discriminate. Qed.

Definition fmon_of (e : env) (msg : message) : string := ("FMon_" ++ g_name msg ++ "_" ++ n_drv (e_g e))%string.
Definition rx_okb (e : env) (msg : message) (bits : bool) (d : list Z) (dl tick : Z) (m : mem) : bool :=
  app_okb e && g_notempty msg && payloadb msg d && (0 <=? dl) && (dl <? 256) && (0 <=? tick) && (tick <? 2 ^ 32) &&
  has_structb bits msg (deliver d dl m) && negb (floats_on e) && monitors_on e && has_monitorb (deliver d dl m) &&
  match m_scal (deliver d dl m) (g_csmmethod msg), lookup (g_csmmethod msg) (e_macros e) with None, None => true | _, _ => false end &&
  nameb (g_csmmethod msg) "_d" && nameb (g_name msg ++ "_DLC") "_d" && nameb (g_name msg ++ "_CANID") "_d".
Lemma app_receives : forall db h c tick hash msg bits d dl m, let e := app_env db h c (fmon_of (app_env db h c "" tick hash) msg) tick hash in
  program e -> In msg (d_msgs db) -> rx_okb e msg bits d dl tick m = true ->
  receives e msg bits d dl tick hash no_hook no_phys (deliver d dl m).
Proof.
  intros db h c tick hash msg bits d dl m e P I H. unfold rx_okb in H. splitb H.
  assert (NF : forall x, (forall y, x <> ("FMon_" ++ y)%string) -> e_calls e x = None).
  { intros x N. change (e_calls e x) with (app_calls (fmon_of (app_env db h c "" tick hash) msg) x). unfold app_calls.
    destruct (String.eqb_spec x (fmon_of (app_env db h c "" tick hash) msg)) as [E|E]; [|reflexivity]. exfalso. unfold fmon_of in E. eapply N. exact E. }
  constructor; auto.
  - now apply deliver_payload.
  - split; [reflexivity|lia].
  - now apply has_structb_ok.
  - intros X. rewrite X in H6. discriminate.
  - intros _. constructor.
    + now apply has_monitorb_ok.
    + apply (app_tick e tick hash); [exact H|reflexivity|apply NF; discriminate|lia].
    + intros _. destruct (m_scal (deliver d dl m) (g_csmmethod msg)) eqn:SM; [discriminate|]. split; [reflexivity|].
      destruct (lookup (g_csmmethod msg) (e_macros e)) eqn:LM; [discriminate|].
      apply (app_hash e msg tick hash "_d"); auto; try (now apply nameb_ok).
    + change (app_calls (fmon_of e msg) (fmon_of e msg) = Some (fun (_ : list expr) m0 => Ok (no_hook m0, VI I32 0))).
      unfold app_calls. rewrite String.eqb_refl. reflexivity.
    + intros m0. split; [reflexivity|]. intros q _. reflexivity.
Qed.

(** one reception in such a program *)
Definition app_rx (db : dbclist) (h c : string) (msg : message) (tick : Z) (hash : list Z -> Z) (d : list Z) (dl : Z) : rx :=
  {| r_env := app_env db h c (fmon_of (app_env db h c "" tick hash) msg) tick hash; r_data := d; r_len := dl; r_tick := tick;
     r_hash := hash; r_hook := no_hook; r_phys := no_phys |}.
Definition after (r : rx) (msg : message) (m : mem) : mem :=
  match unpack (r_env r) msg (deliver (r_data r) (r_len r) m) with Ok (m', _) => m' | _ => m end.
Definition step_okb (r : rx) (msg : message) (bits : bool) (m : mem) : bool :=
  rx_okb (r_env r) msg bits (r_data r) (r_len r) (r_tick r) m &&
  match unpack (r_env r) msg (deliver (r_data r) (r_len r) m) with Ok _ => true | _ => false end.
Lemma app_step : forall db h c msg tick hash d dl bits m m2 l, let r := app_rx db h c msg tick hash d dl in
  program (r_env r) -> In msg (d_msgs db) -> step_okb r msg bits m = true -> history msg bits (after r msg m) l m2 ->
  history msg bits m (r :: l) m2.
Proof.
  intros db h c msg tick hash d dl bits m m2 l r P I H HI. unfold step_okb in H. splitb H. unfold after in HI.
  destruct (unpack (r_env r) msg (deliver (r_data r) (r_len r) m)) as [[m' v]|x|x] eqn:U; try discriminate.
  econstructor; [apply deliver_kept| | |exact U|exact HI].
  - cbn [r app_rx r_env r_data r_len r_tick r_hash r_hook r_phys]. apply app_receives; auto.
  - unfold rx_okb in H. splitb H. assumption.
Qed.

(** memory of the sender and calls of Pack *)
Definition app_tx (db : dbclist) (h c : string) (msg : message) (hash : list Z -> Z) (mx : Z) (buf fr : list Z) : tx :=
  {| t_env := app_env db h c "" 0 hash; t_max := mx; t_buffer := buf; t_raw := no_raw; t_hash := hash; t_frame := fr |}.
(** the application provides a buffer and changes some members *)
Definition prepare (buf : list Z) (vals : list (string * (lty * cval))) (m : mem) : mem :=
  {| m_scal := fun q => match lookup q vals with Some x => Some x | None => m_scal m q end;
     m_arr := fun q => if String.eqb q "_d" then Some buf else None |}.
Definition carriesb (s : bool) (len v : Z) : bool :=
  if s then (- 2 ^ (len - 1) <=? v) && (v <? 2 ^ (len - 1)) else (0 <=? v) && (v <? 2 ^ len).
Lemma carriesb_ok : forall s len v, carriesb s len v = true -> carries s len v.
Proof. intros [] len v H; unfold carriesb in H; splitb H; cbn [carries]; lia. Qed.
Definition one_byteb (cs : signal) : bool :=
  forallb (fun k => sig_pos (s_order cs) (s_start cs) (s_len cs) (Z.of_nat k) / 8 =? sig_pos (s_order cs) (s_start cs) (s_len cs) 0 / 8)
          (seq 0 (Z.to_nat (s_len cs))).
Definition tx_okb (e : env) (msg : message) (bits : bool) (mx : Z) (buf : list Z) (m : mem) : bool :=
  app_okb e && g_notempty msg && payloadb msg buf && (0 <=? mx) && (mx <? 256) && negb (struct_on e) &&
  match m_scal m "*_len", m_scal m "*_ide" with Some (LInt U8, _), Some (LInt U8, _) => true | _, _ => false end &&
  has_structb bits msg m && forallb (fun sg => negb (converted (e_macros e) (e_g e) msg sg)) (g_sigs msg) &&
  match counter_on (e_macros e) (e_g e) msg with Some rs => carriesb (s_signed rs) (s_len rs) (value m rs) | None => true end &&
  match checksum_on (e_macros e) (e_g e) msg with
  | Some cs => one_byteb cs &&
      match m_scal m (g_csmmethod msg), lookup (g_csmmethod msg) (e_macros e) with None, None => true | _, _ => false end &&
      nameb (g_csmmethod msg) "_d" && nameb (g_name msg ++ "_DLC") "_d" && nameb (g_name msg ++ "_CANID") "_d" && nameb (g_csmmethod msg) "i"
  | None => true
  end.
Lemma app_sends : forall db h c hash msg bits mx buf vals m, let e := app_env db h c "" 0 hash in
  program e -> In msg (d_msgs db) -> initial_is e 0 -> maxdlc_is e mx -> tx_okb e msg bits mx buf (prepare buf vals m) = true ->
  sends e msg bits 0 mx buf no_raw hash (prepare buf vals m).
Proof.
  intros db h c hash msg bits mx buf vals m e P I N MX H. unfold tx_okb in H. splitb H. apply negb_true_iff in H5.
  rewrite forallb_forall in H2. constructor; auto.
  - intros cs E. rewrite E in H0. splitb H0. split.
    + specialize (H2 cs). apply negb_true_iff. apply H2. now apply (checksum_in (e_macros e) (e_g e)).
    + intros k K. unfold one_byteb in H0. rewrite forallb_forall in H0. specialize (H0 (Z.to_nat k)).
      rewrite Z2Nat.id in H0 by lia. apply Z.eqb_eq. apply H0. apply in_seq. lia.
  - rewrite H5. cbn [buffer]. apply (payloadb_ok [] "_d") in H8. destruct H8 as ([A B] & C & D). split; [split|split]; auto.
  - rewrite H5. cbn [reports]. destruct (m_scal (prepare buf vals m) "*_len") as [[[[]| | |] v1]|] eqn:E1; try discriminate.
    destruct (m_scal (prepare buf vals m) "*_ide") as [[[[]| | |] v2]|] eqn:E2; try discriminate.
    intros p t z [X|[X|[]]]; injection X; intros; subst p t z; eauto.
  - split; [exact N|lia].
  - split; [exact MX|lia].
  - now apply has_structb_ok.
  - intros rs E. rewrite E in H1. now apply carriesb_ok.
  - intros sg J E. specialize (H2 sg J). rewrite E in H2. discriminate.
  - intros E. destruct (checksum_on _ _ _) as [cs|] eqn:CS; [|congruence]. clear E. splitb H0.
    destruct (m_scal (prepare buf vals m) (g_csmmethod msg)) eqn:SM; [discriminate|].
    destruct (lookup (g_csmmethod msg) (e_macros e)) eqn:LM; [discriminate|].
    split; [|split; [reflexivity|now apply nameb_ok]]. rewrite H5. cbn [buffer buffer_expr].
    apply (app_hash e msg 0 hash "_d"); auto; now apply nameb_ok.
Qed.

Definition sent (t : tx) (msg : message) (vals : list (string * (lty * cval))) (m : mem) : mem :=
  match pack (t_env t) msg (prepare (t_buffer t) vals m) with Ok (m', _) => m' | _ => m end.
Fixpoint zs_eqb (a b : list Z) : bool :=
  match a, b with [], [] => true | x :: a', y :: b' => (x =? y) && zs_eqb a' b' | _, _ => false end.
Lemma zs_eqb_ok : forall a b, zs_eqb a b = true -> a = b.
Proof.
  induction a as [|x a IH]; intros [|y b] H; cbn [zs_eqb] in H; try discriminate; [reflexivity|]. splitb H. f_equal; [lia|auto].
Qed.
Definition is_sig (o : option signal) (rs : signal) : bool :=
  match o with Some sg => String.eqb (s_name sg) (s_name rs) | None => false end.
Definition send_okb (t : tx) (msg : message) (bits : bool) (rs : signal) (vals : list (string * (lty * cval))) (m : mem) : bool :=
  tx_okb (t_env t) msg bits (t_max t) (t_buffer t) (prepare (t_buffer t) vals m) && (g_dlc msg <=? t_max t) &&
  match lookup (member (s_name rs)) vals with None => true | Some _ => false end &&
  negb (is_sig (checksum_on (e_macros (t_env t)) (e_g (t_env t)) msg) rs) &&
  negb (converted (e_macros (t_env t)) (e_g (t_env t)) msg rs) &&
  match pack (t_env t) msg (prepare (t_buffer t) vals m) with
  | Ok (m', _) => match m_arr m' "_d" with Some d => zs_eqb d (t_frame t) | None => false end
  | _ => false
  end.
Lemma app_send : forall db h c msg hash mx buf fr bits rs vals m m2 l, let t := app_tx db h c msg hash mx buf fr in
  program (t_env t) -> In msg (d_msgs db) -> initial_is (t_env t) 0 -> maxdlc_is (t_env t) mx ->
  counter_on (e_macros (t_env t)) (e_g (t_env t)) msg = Some rs ->
  send_okb t msg bits rs vals m = true -> sending msg bits rs (sent t msg vals m) l m2 -> sending msg bits rs m (t :: l) m2.
Proof.
  intros db h c msg hash mx buf fr bits rs vals m m2 l t P I N MX CT H SE. unfold send_okb in H. splitb H. unfold sent in SE.
  destruct (pack (t_env t) msg (prepare (t_buffer t) vals m)) as [[m' v]|x|x] eqn:RUN; try discriminate.
  assert (ST : struct_on (t_env t) = false) by (unfold tx_okb in H; splitb H; now apply negb_true_iff).
  econstructor; try exact RUN; try exact SE; auto.
  - cbn [prepare m_scal]. destruct (lookup (member (s_name rs)) vals); [discriminate|reflexivity].
  - cbn [t app_tx t_env t_max t_buffer t_raw t_hash]. apply app_sends; auto.
  - lia.
  - intros E. unfold is_sig in H2. rewrite E in H2. rewrite String.eqb_refl in H2. discriminate.
  - now apply negb_true_iff.
  - unfold frame. rewrite ST. cbn [buffer]. destruct (m_arr m' "_d") as [d'|]; [|discriminate]. f_equal. now apply zs_eqb_ok.
Qed.
