(** Consequences of the theorems about complete emitted functions. *)

From Coq Require Import ZArith NArith List String Ascii Bool Permutation Lia ZifyBool.
From Verif Require Import Base Dbl CSyntax CSem CRun Types Formatter Settings MainGen App CodecSpec MsgSpec BitLemmas DriverSpec DriverProof PackRun HeaderSpec HeaderProof HeaderRun CodecEnv.
Import ListNotations.
Open Scope Z_scope.
Ltac Zify.zify_post_hook ::= Z.to_euclidean_division_equations.

(** ** From settings to runs *)

Lemma setting_const : forall e x dflt v, setting_is e x dflt v ->
  defaulted (e_conf e) (after_header (e_conf e) (e_h e)) x dflt ->
  const_macro (after_header (e_conf e) (e_h e)) x v.
Proof.
  intros e x dflt v S D. unfold setting_is, defaulted in *. destruct (lookup x (e_conf e)) eqn:L.
  - destruct S as (b & S1 & S2). exists b. rewrite D. rewrite L in S1. auto.
  - now subst v.
Qed.

Lemma program_ids : forall e msg, program e -> In msg (d_msgs (e_db e)) -> id_consts (e_macros e) msg.
Proof.
  intros e msg P I. eapply unit_ids; [apply P|].
  eapply header_consts; eauto; try apply P; eauto; cbn; tauto.
Qed.

Theorem receive_run : forall e msg bits d dl tick hash hook pf m, receives e msg bits d dl tick hash hook pf m -> signed_fit msg ->
  exists m', unpack e msg m = Ok (m', Some (VI U32 (g_id msg))) /\
    unpacked_to bits (floats_on e) (rolls_on e) msg d pf m m' /\ keeps_rest (e_macros e) (e_g e) msg m m' /\
    (monitors_on e = true ->
     exists m1, m' = hook m1 /\ monitored (e_macros e) (e_g e) msg bits d dl tick hash m m1 /\
                (forall sg, counter_on (e_macros e) (e_g e) msg = Some sg -> m_scal m' (expected sg) = m_scal m1 (expected sg))).
Proof.
  intros e msg bits d dl tick hash hook pf m [P [I1 I2] PD [D1 D2] HS PH MN] SF.
  apply (unpack_run (S (e_fuel e)) (e_drv e) (e_g e) (e_db e) (e_h e) (e_src e)); auto; try apply P.
  now apply program_ids.
Qed.

Definition written (mx : Z) (msg : message) : Z := Z.min (g_dlc msg) mx.

Theorem send_run : forall e msg bits ini mx d tf hash m, sends e msg bits ini mx d tf hash m ->
  exists m' d', pack e msg m = Ok (m', Some (VI U32 (g_id msg))) /\
    packed (e_macros e) (e_g e) msg (struct_on e) bits ini (written mx msg) d tf hash m m' d'.
Proof.
  intros e msg bits ini mx d tf hash m [P [I1 I2] CP PD RP [IN1 IN2] [MX1 MX2] HS CT SC HH].
  assert (MO : msg_ok msg) by (apply (dr_msgs _ _ _ _ _ (pr_driver e P) _ I1)). pose proof (mo_dlc _ MO) as DL.
  apply (pack_run (S (e_fuel e)) (e_drv e) (e_g e) (e_db e) (e_h e) (e_src e)); auto; try apply P.
  - now apply program_ids.
  - constructor; auto.
    + split; [|exact IN2]. eapply unit_const; [apply P|]. eapply setting_const; [exact IN1|].
      eapply header_initial; try apply P. cbn; tauto.
    + destruct PD as (_ & _ & PD). unfold written. split; [lia|]. split; [lia|]. intros m0 MA.
      eapply header_bound; eauto; try apply P; auto; try (cbn; tauto); try lia.
      eapply setting_const; [exact MX1|]. eapply header_max; try apply P. cbn; tauto.
Qed.

(** the message of a setting *)
Lemma sends_msg : forall e msg bits ini mx d tf hash m, sends e msg bits ini mx d tf hash m -> msg_ok msg.
Proof. intros e msg bits ini mx d tf hash m S. destruct (sn_msg _ _ _ _ _ _ _ _ _ S) as [I _]. apply (dr_msgs _ _ _ _ _ (pr_driver e (sn_prog _ _ _ _ _ _ _ _ _ S)) _ I). Qed.
Lemma receives_msg : forall e msg bits d dl tick hash hook pf m, receives e msg bits d dl tick hash hook pf m -> msg_ok msg.
Proof. intros e msg bits d dl tick hash hook pf m R. destruct (rc_msg _ _ _ _ _ _ _ _ _ _ R) as [I _]. apply (dr_msgs _ _ _ _ _ (pr_driver e (rc_prog _ _ _ _ _ _ _ _ _ _ R)) _ I). Qed.

(** ** Bits of payloads *)

Lemma mirror_mirror : forall p, mirror (mirror p) = p.
Proof. intros p. unfold mirror. lia. Qed.
Lemma sig_pos_inj : forall o start len a b, sig_pos o start len a = sig_pos o start len b -> a = b.
Proof.
  intros o start len a b E. destruct o; cbn [sig_pos] in E; try lia.
  apply (f_equal mirror) in E. rewrite !mirror_mirror in E. lia.
Qed.

Lemma nth_repeat' : forall A (a d : A) n i, (i < n)%nat -> nth i (repeat a n) d = a.
Proof. intros A a d n. induction n as [|n IH]; intros [|i] L; cbn; try lia; auto. apply IH. lia. Qed.
Lemma payload_bit_initialised : forall ini vd d p, 0 <= vd <= Z.of_nat (List.length d) -> 0 <= p ->
  payload_bit (initialised ini vd d) p = if p <? 8 * vd then Z.testbit ini (p mod 8) else payload_bit d p.
Proof.
  intros ini vd d p V P. unfold payload_bit, initialised. destruct (Z.ltb_spec p (8 * vd)) as [L|L].
  - rewrite app_nth1 by (rewrite repeat_length; lia). rewrite nth_repeat' by lia. reflexivity.
  - rewrite app_nth2 by (rewrite repeat_length; lia). rewrite repeat_length, Chunks.nth_skipn'.
    do 2 f_equal. lia.
Qed.

Lemma nodup_app_l : forall A (l l' : list A), NoDup (l ++ l') -> NoDup l.
Proof.
  intros A l l'. induction l as [|x l IH]; intros N; [constructor|]. cbn in N. inversion_clear N as [|? ? N1 N2].
  constructor; [|auto]. intros I. apply N1. apply in_or_app. auto.
Qed.
Lemma name_inj : forall msg a b, msg_ok msg -> In a (g_sigs msg) -> In b (g_sigs msg) -> s_name a = s_name b -> a = b.
Proof.
  intros msg a b MO A B E. pose proof (mo_names _ MO) as N. unfold member_names in N.
  apply nodup_app_l in N. clear MO. induction (g_sigs msg) as [|x l IH]; [contradiction|].
  cbn [map] in N. inversion_clear N as [|? ? N1 N2]. destruct A as [->|A], B as [->|B]; auto.
  - contradict N1. rewrite E. now apply in_map.
  - contradict N1. rewrite <- E. now apply in_map.
Qed.

(** position of a signal bit in the buffer *)
Lemma pos_in : forall msg sg k, msg_ok msg -> In sg (g_sigs msg) -> 0 <= k < s_len sg ->
  0 <= sig_pos (s_order sg) (s_start sg) (s_len sg) k < 8 * g_dlc msg.
Proof. intros msg sg k MO I K. exact (ok_in _ _ (mo_sigs _ MO sg I) k K). Qed.

(** a covered bit carries the bit of its signal, over what was there before *)
Lemma composed_covered : forall msg base W d sg k, msg_ok msg -> no_overlap msg -> composed msg base W d ->
  g_dlc msg <= Z.of_nat (List.length base) -> In sg (g_sigs msg) -> 0 <= k < s_len sg ->
  payload_bit d (sig_pos (s_order sg) (s_start sg) (s_len sg) k)
  = payload_bit base (sig_pos (s_order sg) (s_start sg) (s_len sg) k) || Z.testbit (W sg) k.
Proof.
  intros msg base W d sg k MO NO [CL CB CT] LB I K. pose proof (pos_in msg sg k MO I K) as PI.
  apply testbit_ext_iff. rewrite CT by lia. rewrite orb_true_iff. split; intros [A|A]; auto; right.
  - destruct A as (sg' & k' & I' & K' & P' & T). assert (sg' = sg).
    { eapply name_inj; eauto. eapply NO; eauto; [exists k'|exists k]; split; eauto. }
    subst sg'. apply sig_pos_inj in P'. now subst k'.
  - exists sg, k. auto.
Qed.
(** other bits keep what was there *)
Lemma composed_uncovered : forall msg base W d p, composed msg base W d ->
  0 <= p < 8 * Z.of_nat (List.length base) -> (forall sg, In sg (g_sigs msg) -> ~ sig_covers sg p) ->
  payload_bit d p = payload_bit base p.
Proof.
  intros msg base W d p [CL CB CT] P N. apply testbit_ext_iff. rewrite CT by lia. split; [|auto]. intros [A|A]; [auto|].
  destruct A as (sg & k & I & K & E & _). exfalso. apply (N sg I). exists k. auto.
Qed.

Lemma raw_value_bits : forall o start len d z, 0 <= len ->
  (forall k, 0 <= k < len -> payload_bit d (sig_pos o start len k) = Z.testbit z k) ->
  raw_value o start len d = z mod 2 ^ len.
Proof.
  intros o start len d z L H. unfold raw_value. rewrite (bits_val_ext _ (Z.testbit (z mod 2 ^ len))).
  - apply bits_val_of. rewrite Z2Nat.id by lia. apply Z.mod_pos_bound. apply pow2_pos; lia.
  - intros k K. rewrite Z2Nat.id in K by lia. rewrite H by lia. rewrite mod_testbit by lia.
    replace (k <? len) with true by lia. reflexivity.
Qed.
Lemma raw_value_ext : forall o start len d d', 0 <= len ->
  (forall k, 0 <= k < len -> payload_bit d (sig_pos o start len k) = payload_bit d' (sig_pos o start len k)) ->
  raw_value o start len d = raw_value o start len d'.
Proof. intros o start len d d' L H. apply bits_val_ext. intros k K. rewrite Z2Nat.id in K by lia. now apply H. Qed.
Lemma raw_value_bit : forall o start len d k, 0 <= k < len ->
  Z.testbit (raw_value o start len d) k = payload_bit d (sig_pos o start len k).
Proof.
  intros o start len d k K. unfold raw_value. rewrite bits_val_testbit by lia. rewrite Z2Nat.id by lia.
  replace (k <? len) with true by lia. reflexivity.
Qed.

Lemma mod_value : forall signed len v, 1 <= len -> carries signed len v ->
  (if signed then twos len (v mod 2 ^ len) else v mod 2 ^ len) = v.
Proof.
  intros signed len v L C. assert (E : 2 ^ len = 2 * 2 ^ (len - 1)).
  { replace len with (Z.succ (len - 1)) at 1 by lia. apply Z.pow_succ_r; lia. }
  pose proof (pow2_pos (len - 1) ltac:(lia)) as P. destruct signed; cbn [carries] in C.
  - unfold twos. destruct (Z.leb_spec 0 v).
    + rewrite Z.mod_small by lia. destruct (Z.ltb_spec v (2 ^ (len - 1))); lia.
    + replace (v mod 2 ^ len) with (v + 2 ^ len) by (apply Z.mod_unique with (-1); lia).
      destruct (Z.ltb_spec (v + 2 ^ len) (2 ^ (len - 1))); lia.
  - apply Z.mod_small; lia.
Qed.

Lemma twos_testbit : forall len v k, 0 <= k < len -> Z.testbit (twos len v) k = Z.testbit v k.
Proof.
  intros len v k K. unfold twos. destruct (v <? 2 ^ (len - 1)); [reflexivity|].
  rewrite <- (Z.mod_pow2_bits_low (v - 2 ^ len) len k) by lia.
  rewrite <- (Z.mod_pow2_bits_low v len k) by lia. f_equal.
  rewrite <- (Z_mod_plus_full v (-1) (2 ^ len)). f_equal; lia.
Qed.
Lemma decoded_testbit : forall s o start len d k, 0 <= k < len ->
  Z.testbit (decoded s o start len d) k = payload_bit d (sig_pos o start len k).
Proof.
  intros s o start len d k K. unfold decoded. destruct s; [rewrite twos_testbit by lia|]; now apply raw_value_bit.
Qed.

(** bytes are determined by their bits *)
Lemma bytes_ext : forall d d', List.length d = List.length d' ->
  (forall x, In x d -> is_byte x) -> (forall x, In x d' -> is_byte x) ->
  (forall p, 0 <= p < 8 * Z.of_nat (List.length d) -> payload_bit d p = payload_bit d' p) -> d = d'.
Proof.
  intros d d' L B B' H. apply nth_ext with 0 0; [exact L|]. intros n N. apply Z.bits_inj'. intros k K.
  assert (I1 : is_byte (nth n d 0)) by (apply B, nth_In; lia).
  assert (I2 : is_byte (nth n d' 0)) by (apply B', nth_In; lia). unfold is_byte in *.
  destruct (Z.ltb_spec k 8).
  - specialize (H (8 * Z.of_nat n + k) ltac:(lia)). unfold payload_bit in H.
    replace ((8 * Z.of_nat n + k) / 8) with (Z.of_nat n) in H by lia.
    replace ((8 * Z.of_nat n + k) mod 8) with k in H by lia. now rewrite Nat2Z.id in H.
  - rewrite !(testbit_high _ 8) by lia. reflexivity.
Qed.
