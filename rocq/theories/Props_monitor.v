(** Monitors, rolling counter and checksum over histories of frames: C19 to C23.
    Statements use MonSpec (histories), CodecEnv, DriverSpec, MsgSpec and CodecSpec. *)

From Coq Require Import ZArith NArith List String Ascii Bool Lia ZifyBool.
From Verif Require Import Base Dbl CSyntax CSem CRun Types Formatter Settings MainGen Scanner App CodecSpec MsgSpec DriverSpec HeaderSpec CodecEnv Concrete Samples MonSpec MonThms MonSamples.
Import ListNotations.
Open Scope Z_scope.

(** ** C19.  Every frame of the sender arrives, in order: after the last one of any such history
    roll_error is clear, if there are at least two frames or the expected value was right at the start.
    Every initial part of a history is a history, so this is a statement about every frame.
    Partial: unsigned counters of at most 30 bits (in [msg_ok]), which are not at the same time scaled or
    the checksum; see the refutation for signed ones. *)
Theorem C19_undisturbed_partial : forall msg bits1 bits2 rs ms ts ms' m l m',
  sending msg bits1 rs ms ts ms' -> no_overlap msg -> s_signed rs = false ->
  history msg bits2 m l m' -> signed_fit msg -> counting msg l (Some rs) -> hooks_keep l "roll_error" ->
  Forall2 (carries_frame msg) l ts -> l <> [] ->
  ((2 <= List.length l)%nat \/ int_at m (expected rs) = Some ((value ms rs + 1) mod 2 ^ s_len rs)) ->
  int_at m' (mon_path "roll_error") = Some 0.
Proof. exact undisturbed. Qed.
Print Assumptions C19_undisturbed_partial.

(** ** C20.  The frames between two received ones are lost. *)
Theorem C20_lost_frames_partial : forall msg bits1 bits2 rs ms ts ms' m l r1 r2 m' i k t1 t2,
  sending msg bits1 rs ms ts ms' -> no_overlap msg -> s_signed rs = false ->
  history msg bits2 m (l ++ [r1; r2]) m' -> signed_fit msg -> counting msg (l ++ [r1; r2]) (Some rs) ->
  hooks_keep [r1; r2] "roll_error" ->
  nth_error ts i = Some t1 -> nth_error ts (i + 1 + k) = Some t2 -> carries_frame msg r1 t1 -> carries_frame msg r2 t2 ->
  int_at m' (mon_path "roll_error") = Some (flag (negb (Z.of_nat k mod 2 ^ s_len rs =? 0))).
Proof. exact lost_frames. Qed.
Print Assumptions C20_lost_frames_partial.

(** the Status message of the sample: four-bit counter RC, checksum CS *)
Definition hash3 (d : list Z) : Z := (nth 0 d 0 + nth 1 d 0 + nth 2 d 0) mod 256.
Definition status_rx (tick : Z) (d : list Z) (dl : Z) : rx := app_rx sample_db sample_h sample_c status tick hash3 d dl.
Definition status_tx (buf fr : list Z) : tx := app_tx sample_db sample_h sample_c status hash3 8 buf fr.
Definition no_sig : signal := Eval vm_compute in nth 0 (g_sigs engine) (Build_signal "" "" "" 0 0 false false Floats.SpecFloat.S754_nan Floats.SpecFloat.S754_nan Intel false U8 U8 [] [] "" "" MxNone).
Definition rc : signal := Eval vm_compute in match roll_sig status with Some sg => sg | None => no_sig end.
Definition status_cs : signal := Eval vm_compute in match csm_sig status with Some sg => sg | None => no_sig end.

Lemma app_program : forall fmon tick hash, program (app_env sample_db sample_h sample_c fmon tick hash).
Proof. intros. apply programb_ok. vm_compute. reflexivity. Qed.
Lemma status_in : In status (d_msgs sample_db).
Proof. vm_compute. auto. Qed.
Lemma status_overlap : no_overlap status.
Proof. apply no_overlapb_ok. vm_compute. reflexivity. Qed.
Lemma status_signed : signed_fit status.
Proof. intros sg I. cbn in I. repeat (destruct I as [<-|I]; [cbn; intros; lia|]). contradiction. Qed.

Definition val_obj (x : Z) : string * (lty * cval) := (member "Val", (LInt U16, VI U16 x)).
Definition tx_start : mem := tx_mem status false [] [("RC", 13); ("Flag", 2); ("Val", 4660)]%string.
Definition buf4 : list Z := [7; 7; 7; 7].
Definition status_ts : list tx :=
  [status_tx buf4 [46; 52; 18; 116]; status_tx buf4 [47; 52; 18; 117]; status_tx buf4 [32; 255; 255; 30]; status_tx buf4 [33; 255; 255; 31]].
(** four frames, the application changes Val before the third *)
Lemma status_sending : exists m', sending status false rc tx_start status_ts m'.
Proof.
  eexists. unfold status_ts, status_tx.
  apply app_send with (vals := []); [apply app_program|apply status_in|vm_compute; reflexivity|vm_compute; reflexivity|vm_compute; reflexivity|vm_compute; reflexivity|].
  apply app_send with (vals := []); [apply app_program|apply status_in|vm_compute; reflexivity|vm_compute; reflexivity|vm_compute; reflexivity|vm_compute; reflexivity|].
  apply app_send with (vals := [val_obj 65535]); [apply app_program|apply status_in|vm_compute; reflexivity|vm_compute; reflexivity|vm_compute; reflexivity|vm_compute; reflexivity|].
  apply app_send with (vals := []); [apply app_program|apply status_in|vm_compute; reflexivity|vm_compute; reflexivity|vm_compute; reflexivity|vm_compute; reflexivity|].
  apply S_nil.
Qed.
Definition rx_start (cnt roll csm : Z) : mem := mk_mem (monitor_of cnt roll csm ++ struct_of false status [("RC_expt", 3)]%string)%list "_d" [].
Ltac receive := apply app_step; [apply app_program|apply status_in|vm_compute; reflexivity|].
Definition status_rs : list rx :=
  [status_rx 10 [46; 52; 18; 116] 4; status_rx 20 [47; 52; 18; 117; 99] 5; status_rx 30 [32; 255; 255; 30] 4; status_rx 40 [33; 255; 255; 31] 3].
Lemma status_history : exists m', history status false (rx_start 4294967295 0 1) status_rs m'.
Proof. eexists. unfold status_rs, status_rx. do 4 receive. apply H_nil. Qed.

Example C19_case : (exists ms', sending status false rc tx_start status_ts ms') /\ no_overlap status /\ s_signed rc = false /\
  (exists m', history status false (rx_start 4294967295 0 1) status_rs m') /\ signed_fit status /\
  counting status status_rs (Some rc) /\ hooks_keep status_rs "roll_error" /\ Forall2 (carries_frame status) status_rs status_ts.
Proof.
  split; [apply status_sending|]. split; [apply status_overlap|]. split; [reflexivity|]. split; [apply status_history|].
  split; [apply status_signed|]. split; [|split].
  - intros r I. cbn in I. repeat (destruct I as [<-|I]; [vm_compute; reflexivity|]). contradiction.
  - intros r I m. cbn in I. repeat (destruct I as [<-|I]; [reflexivity|]). contradiction.
  - repeat constructor.
Qed.

(** two frames lost: the first and the fourth of the frames above arrive *)
Definition gap_rs : list rx := [status_rx 10 [46; 52; 18; 116] 4; status_rx 20 [33; 255; 255; 31] 4].
Lemma gap_history : exists m', history status false (rx_start 0 0 0) gap_rs m' /\ int_at m' (mon_path "roll_error") = Some 1.
Proof. eexists. split; [unfold gap_rs, status_rx; do 2 receive; apply H_nil|]. vm_compute. reflexivity. Qed.
Example C20_case : exists r1 r2 t1 t2, gap_rs = ([] ++ [r1; r2])%list /\ nth_error status_ts 0 = Some t1 /\
  nth_error status_ts (0 + 1 + 2) = Some t2 /\ carries_frame status r1 t1 /\ carries_frame status r2 t2 /\
  Z.of_nat 2 mod 2 ^ s_len rc <> 0.
Proof. do 4 eexists. repeat split. vm_compute. discriminate. Qed.

(** signed counters: the expected value is computed without sign *)
Definition scount_text : string :=
"BO_ 291 Cnt: 1 ECU
 SG_ RC : 0|4@1- (1,0) [0|0] """" GW
BO_ 5 Last: 1 GW
 SG_ Dummy : 0|1@1+ (1,0) [0|0] """" ECU
CM_ SG_ 291 RC ""<RollingCounter>"";
".
Definition scount_db : dbclist := Eval vm_compute in db_of scount_text.
Definition scount_files : list (string * string) := Eval vm_compute in files_of "drv" scount_db.
Definition scount_h : string := Eval vm_compute in snd (nth 0 scount_files ("", "")%string).
Definition scount_c : string := Eval vm_compute in snd (nth 1 scount_files ("", "")%string).
Definition scount : message := Eval vm_compute in nth 0 (d_msgs scount_db) engine.
Definition scount_rc : signal := Eval vm_compute in match roll_sig scount with Some sg => sg | None => no_sig end.
Lemma scount_program : forall fmon tick hash, program (app_env scount_db scount_h scount_c fmon tick hash).
Proof. intros. apply programb_ok. vm_compute. reflexivity. Qed.
Lemma scount_in : In scount (d_msgs scount_db).
Proof. vm_compute. auto. Qed.
Definition scount_ts : list tx :=
  [app_tx scount_db scount_h scount_c scount hash3 1 [0] [7]; app_tx scount_db scount_h scount_c scount hash3 1 [0] [8]].
Definition scount_rs : list rx :=
  [app_rx scount_db scount_h scount_c scount 1 hash3 [7] 1; app_rx scount_db scount_h scount_c scount 2 hash3 [8] 1].
Lemma scount_sending : exists m', sending scount false scount_rc (tx_mem scount false [] [("RC", 6)]%string) scount_ts m'.
Proof.
  eexists. unfold scount_ts.
  do 2 (apply app_send with (vals := []); [apply scount_program|apply scount_in|vm_compute; reflexivity|vm_compute; reflexivity|vm_compute; reflexivity|vm_compute; reflexivity|]).
  apply S_nil.
Qed.
Definition scount_start : mem := mk_mem (monitor_of 0 0 0 ++ struct_of false scount [("RC_expt", 7)]%string)%list "_d" [].
Lemma scount_history : exists m', history scount false scount_start scount_rs m' /\ int_at m' (mon_path "roll_error") = Some 1.
Proof.
  eexists. split.
  - unfold scount_rs. do 2 (apply app_step; [apply scount_program|apply scount_in|vm_compute; reflexivity|]). apply H_nil.
  - vm_compute. reflexivity.
Qed.
Lemma scount_facts : no_overlap scount /\ signed_fit scount /\ counting scount scount_rs (Some scount_rc) /\
  (forall f, hooks_keep scount_rs f) /\ Forall2 (carries_frame scount) scount_rs scount_ts.
Proof.
  split; [apply no_overlapb_ok; vm_compute; reflexivity|]. split.
  { intros sg I. cbn in I. repeat (destruct I as [<-|I]; [cbn; intros; lia|]). contradiction. }
  split; [|split].
  - intros r I. cbn in I. repeat (destruct I as [<-|I]; [vm_compute; reflexivity|]). contradiction.
  - intros f r I m. cbn in I. repeat (destruct I as [<-|I]; [reflexivity|]). contradiction.
  - repeat constructor.
Qed.

Theorem C19_undisturbed_refuted : exists msg bits1 bits2 rs ms ts ms' m l m',
  sending msg bits1 rs ms ts ms' /\ no_overlap msg /\ history msg bits2 m l m' /\ signed_fit msg /\ counting msg l (Some rs) /\
  hooks_keep l "roll_error" /\ Forall2 (carries_frame msg) l ts /\ (2 <= List.length l)%nat /\
  int_at m (expected rs) = Some ((value ms rs + 1) mod 2 ^ s_len rs) /\
  int_at m' (mon_path "roll_error") = Some 1.
Proof.
  destruct scount_sending as (ms' & SE). destruct scount_history as (m' & H & E). destruct scount_facts as (NO & SF & CT & HK & F).
  exists scount, false, false, scount_rc, (tx_mem scount false [] [("RC", 6)]%string), scount_ts, ms', scount_start, scount_rs, m'.
  repeat (split; [first [assumption|apply HK|vm_compute; reflexivity|cbn; lia]|]). exact E.
Qed.
Print Assumptions C19_undisturbed_refuted.

Theorem C20_lost_frames_refuted : exists msg bits1 bits2 rs ms ts ms' m l r1 r2 m' i k t1 t2,
  sending msg bits1 rs ms ts ms' /\ no_overlap msg /\ history msg bits2 m (l ++ [r1; r2]) m' /\ signed_fit msg /\
  counting msg (l ++ [r1; r2]) (Some rs) /\ hooks_keep [r1; r2] "roll_error" /\
  nth_error ts i = Some t1 /\ nth_error ts (i + 1 + k) = Some t2 /\ carries_frame msg r1 t1 /\ carries_frame msg r2 t2 /\
  Z.of_nat k mod 2 ^ s_len rs = 0 /\ int_at m' (mon_path "roll_error") = Some 1.
Proof.
  destruct scount_sending as (ms' & SE). destruct scount_history as (m' & H & E). destruct scount_facts as (NO & SF & CT & HK & F).
  exists scount, false, false, scount_rc, (tx_mem scount false [] [("RC", 6)]%string), scount_ts, ms', scount_start, [],
    (app_rx scount_db scount_h scount_c scount 1 hash3 [7] 1), (app_rx scount_db scount_h scount_c scount 2 hash3 [8] 1), m', 0%nat, 0%nat.
  do 2 eexists. repeat (split; [first [assumption|apply HK|vm_compute; reflexivity]|]). exact E.
Qed.
Print Assumptions C20_lost_frames_refuted.

(** ** C21.  The error flags do not stay set: each one tells about the latest frame only.  (A flag whose
    check is not compiled in is never touched.) *)
Theorem C21_flags_latest_partial : forall msg bits m l m', history msg bits m l m' -> signed_fit msg ->
  (counting msg l None -> hooks_keep l "roll_error" -> int_at m' (mon_path "roll_error") = int_at m (mon_path "roll_error")) /\
  (summing msg l None -> hooks_keep l "csm_error" -> int_at m' (mon_path "csm_error") = int_at m (mon_path "csm_error")) /\
  (forall l0 r cs, l = (l0 ++ [r])%list -> summing msg [r] (Some cs) -> exact_layout cs -> hooks_keep [r] "csm_error" ->
     int_at m' (mon_path "csm_error") = Some (flag (negb (r_hash r (r_data r) mod 256 =? sig_value cs (r_data r))))) /\
  (forall l0 r1 r2 sg, l = (l0 ++ [r1; r2])%list -> counting msg l (Some sg) -> s_signed sg = false -> hooks_keep [r1; r2] "roll_error" ->
     int_at m' (mon_path "roll_error")
     = Some (flag (negb (sig_value sg (r_data r2) =? (sig_value sg (r_data r1) + 1) mod 2 ^ s_len sg)))).
Proof.
  intros msg bits m l m' H SF. split; [|split; [|split]].
  - intros. eapply flag_kept_roll; eauto.
  - intros. eapply flag_kept_csm; eauto.
  - intros l0 r cs ->. intros. eapply csm_last; eauto.
  - intros l0 r1 r2 sg ->. intros. eapply roll_two; eauto.
Qed.
Print Assumptions C21_flags_latest_partial.

(** a wrong counter and a wrong checksum, then a good frame *)
Definition bad_rs : list rx := [status_rx 10 [46; 52; 18; 17] 4].
Definition good_rs : list rx := [status_rx 20 [47; 52; 18; 117] 4].
Theorem C21_sticky_refuted : exists msg bits m l1 m1 l2 m2, history msg bits m l1 m1 /\ history msg bits m1 l2 m2 /\
  (forall f, hooks_keep (l1 ++ l2) f) /\
  int_at m1 (mon_path "roll_error") = Some 1 /\ int_at m1 (mon_path "csm_error") = Some 1 /\
  int_at m2 (mon_path "roll_error") = Some 0 /\ int_at m2 (mon_path "csm_error") = Some 0.
Proof.
  exists status, false, (rx_start 0 0 0), bad_rs. eexists. exists good_rs. eexists.
  split; [unfold bad_rs, status_rx; receive; apply H_nil|]. split; [unfold good_rs, status_rx; receive; apply H_nil|].
  split; [intros f r I m; cbn in I; repeat (destruct I as [<-|I]; [reflexivity|]); contradiction|].
  repeat (split; [vm_compute; reflexivity|]). vm_compute. reflexivity.
Qed.
Print Assumptions C21_sticky_refuted.

(** ** C22.  The sender's checksum is computed while the bits of the checksum signal are clear, the
    receiver's over the bytes as received.  They agree for hash functions that do not depend on the
    checksum signal (and, for signals below 8 bits, give values that fit). *)
Theorem C22_checksum_passes_partial : forall e msg bits mx d tf hash m cs m1 v d',
  sends e msg bits 0 mx d tf hash m -> g_dlc msg <= mx -> no_overlap msg ->
  checksum_on (e_macros e) (e_g e) msg = Some cs -> s_signed cs = false -> ignores msg cs hash ->
  pack e msg m = Ok (m1, v) -> frame e m1 d' -> 0 <= hash d' mod 256 < 2 ^ s_len cs ->
  forall bits2 l r m2 m2', history msg bits2 m2 (l ++ [r]) m2' -> signed_fit msg -> summing msg [r] (Some cs) ->
  hooks_keep [r] "csm_error" -> firstn (Z.to_nat (g_dlc msg)) (r_data r) = firstn (Z.to_nat (g_dlc msg)) d' -> r_hash r = hash ->
  int_at m2' (mon_path "csm_error") = Some 0.
Proof. exact checksum_passes. Qed.
Print Assumptions C22_checksum_passes_partial.

Lemma byte_bits : forall x y n, is_byte (nth n x 0) -> is_byte (nth n y 0) ->
  (forall k, 0 <= k < 8 -> payload_bit x (8 * Z.of_nat n + k) = payload_bit y (8 * Z.of_nat n + k)) -> nth n x 0 = nth n y 0.
Proof.
  intros x y n BX BY H. apply Z.bits_inj'. intros k K. unfold is_byte in *. destruct (Z.ltb_spec k 8).
  - specialize (H k ltac:(lia)). unfold payload_bit in H. replace ((8 * Z.of_nat n + k) / 8) with (Z.of_nat n) in H.
    + replace ((8 * Z.of_nat n + k) mod 8) with k in H; [now rewrite Nat2Z.id in H|].
      rewrite Z.add_comm, Z.mul_comm, Z_mod_plus_full, Z.mod_small; lia.
    + rewrite Z.add_comm, Z.mul_comm, Z.div_add, Z.div_small; lia.
  - rewrite !(BitLemmas.testbit_high _ 8) by lia. reflexivity.
Qed.
(** the hash of the first three bytes does not depend on the signal CS, which is the fourth *)
Example C22_case : ignores status status_cs hash3 /\ (exists cs, csm_sig status = Some cs /\ cs = status_cs) /\
  (exists m', history status false (rx_start 0 0 0) ([] ++ [status_rx 10 [46; 52; 18; 116] 4]) m' /\ int_at m' (mon_path "csm_error") = Some 0).
Proof.
  split; [|split].
  - intros x y BX BY LX LY H. cbn [g_dlc status] in LX, LY, H. unfold hash3.
    assert (N : forall n, (n < 3)%nat -> nth n x 0 = nth n y 0).
    { intros n L. apply byte_bits; [apply BX, nth_In; lia|apply BY, nth_In; lia|]. intros k K. apply H; [lia|].
      intros (j & J & E). change (0 <= j < 8) in J. change (24 + j = 8 * Z.of_nat n + k) in E. lia. }
    rewrite (N 0%nat), (N 1%nat), (N 2%nat) by lia. reflexivity.
  - eexists. split; reflexivity.
  - eexists. split; [unfold status_rx; receive; apply H_nil|]. vm_compute. reflexivity.
Qed.

(** a hash of all bytes *)
Definition hash_all (d : list Z) : Z := fold_left Z.add (firstn 4 d) 0 mod 256.
Theorem C22_checksum_passes_refuted : exists e msg bits mx d tf hash m cs m1 v d' bits2 l r m2 m2',
  sends e msg bits 0 mx d tf hash m /\ g_dlc msg <= mx /\ no_overlap msg /\
  checksum_on (e_macros e) (e_g e) msg = Some cs /\ s_signed cs = false /\ s_len cs = 8 /\
  pack e msg m = Ok (m1, v) /\ frame e m1 d' /\
  history msg bits2 m2 (l ++ [r]) m2' /\ signed_fit msg /\ summing msg [r] (Some cs) /\
  hooks_keep [r] "csm_error" /\ r_data r = d' /\ r_hash r = hash /\
  int_at m2' (mon_path "csm_error") = Some 1.
Proof.
  exists (app_env sample_db sample_h sample_c "" 0 hash_all), status, false, 8, buf4, no_raw, hash_all, (prepare buf4 [] tx_start), status_cs.
  do 2 eexists. exists [46; 52; 18; 116], false, [], (app_rx sample_db sample_h sample_c status 10 hash_all [46; 52; 18; 116] 4), (rx_start 0 0 0). eexists.
  split; [apply app_sends; [apply app_program|apply status_in|vm_compute; reflexivity|vm_compute; reflexivity|vm_compute; reflexivity]|].
  split; [cbn; lia|]. split; [apply status_overlap|]. split; [vm_compute; reflexivity|]. split; [reflexivity|]. split; [reflexivity|].
  split; [vm_compute; reflexivity|]. split; [vm_compute; reflexivity|].
  split; [receive; apply H_nil|]. split; [apply status_signed|].
  split; [intros r [<-|[]]; vm_compute; reflexivity|]. split; [intros r [<-|[]] m; reflexivity|].
  split; [reflexivity|]. split; [reflexivity|]. vm_compute. reflexivity.
Qed.
Print Assumptions C22_checksum_passes_refuted.

(** ** C06: the structs differ only in Val, the payloads also in the checksum *)
Definition tx_other : mem := set_scal tx_start (member "Val") (LInt U16, VI U16 7).
Theorem C06_checksum_refuted : exists e msg bits ini mx d tf hash ma mb sg0 ma' da' mb' db' p,
  sends e msg bits ini mx d tf hash ma /\ sends e msg bits ini mx d tf hash mb /\ g_dlc msg <= mx /\ no_overlap msg /\ In sg0 (g_sigs msg) /\
  (forall sg, In sg (g_sigs msg) -> sg <> sg0 -> value ma sg = value mb sg) /\
  pack e msg ma = Ok (ma', Some (VI U32 (g_id msg))) /\ frame e ma' da' /\ pack e msg mb = Ok (mb', Some (VI U32 (g_id msg))) /\ frame e mb' db' /\
  0 <= p < 8 * g_dlc msg /\ ~ sig_covers sg0 p /\ payload_bit da' p <> payload_bit db' p.
Proof.
  exists (app_env sample_db sample_h sample_c "" 0 hash3), status, false, 0, 8, buf4, no_raw, hash3, (prepare buf4 [] tx_start), (prepare buf4 [] tx_other), (nth 2 (g_sigs status) status_cs).
  eexists. exists [46; 52; 18; 116]. eexists. eexists. exists 24.
  split; [apply app_sends; [apply app_program|apply status_in|vm_compute; reflexivity|vm_compute; reflexivity|vm_compute; reflexivity]|].
  split; [apply app_sends; [apply app_program|apply status_in|vm_compute; reflexivity|vm_compute; reflexivity|vm_compute; reflexivity]|].
  split; [cbn; lia|]. split; [apply status_overlap|]. split; [vm_compute; tauto|].
  split. { intros sg I N. repeat destruct I as [<-|I]; try contradiction; reflexivity. }
  split; [vm_compute; reflexivity|]. split; [vm_compute; reflexivity|]. split; [vm_compute; reflexivity|]. split; [vm_compute; reflexivity|].
  split; [cbn; lia|]. split; [|vm_compute; discriminate].
  intros (k & K & E). change (0 <= k < 16) in K. change (8 + k = 24) in E. lia.
Qed.
Print Assumptions C06_checksum_refuted.

(** ** C23 *)
Theorem C23_bookkeeping : forall msg bits m l m', history msg bits m l m' -> signed_fit msg ->
  (forall k, hooks_keep l "frame_cnt" -> int_at m (mon_path "frame_cnt") = Some k -> 0 <= k < 2 ^ 32 ->
     int_at m' (mon_path "frame_cnt") = Some ((k + Z.of_nat (List.length l)) mod 2 ^ 32)) /\
  (forall l0 r, l = (l0 ++ [r])%list ->
     (hooks_keep [r] "last_cycle" -> int_at m' (mon_path "last_cycle") = Some (r_tick r)) /\
     (hooks_keep [r] "dlc_error" -> int_at m' (mon_path "dlc_error") = Some (flag (r_len r <? g_dlc msg)))).
Proof.
  intros msg bits m l m' H SF. split.
  - intros. eapply frames_counted; eauto.
  - intros l0 r ->. eapply last_frame; eauto.
Qed.
Print Assumptions C23_bookkeeping.
(** four frames from a counter just before its wrap, the last one too short *)
Example C23_case : exists m', history status false (rx_start 4294967295 0 1) status_rs m' /\
  int_at m' (mon_path "frame_cnt") = Some 3 /\ int_at m' (mon_path "last_cycle") = Some 40 /\ int_at m' (mon_path "dlc_error") = Some 1.
Proof.
  eexists. split; [unfold status_rs, status_rx; do 4 receive; apply H_nil|].
  split; [vm_compute; reflexivity|]. split; vm_compute; reflexivity.
Qed.
