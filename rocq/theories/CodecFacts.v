(** Proofs of the statements in Props_codec.v. *)

From Coq Require Import ZArith NArith List String Ascii Bool Permutation Lia ZifyBool.
From Verif Require Import Base Dbl CSyntax CSem CRun Types Formatter Settings MainGen App CodecSpec MsgSpec BitLemmas DriverSpec DriverProof PackRun HeaderSpec CodecEnv CodecThms.
Import ListNotations.
Open Scope Z_scope.
Ltac Zify.zify_post_hook ::= Z.to_euclidean_division_equations.

Notation spos sg k := (sig_pos (s_order sg) (s_start sg) (s_len sg) k).

Lemma field_fun : forall m sg a b, field_is m sg a -> field_is m sg b -> a = b.
Proof. unfold field_is. intros. congruence. Qed.
Lemma field_value : forall m sg a, field_is m sg a -> value m sg = a.
Proof. unfold field_is, value. intros m sg a ->. reflexivity. Qed.

Lemma unpack_unsigned : forall e msg bits d dl tick hash hook pf m,
  receives e msg bits d dl tick hash hook pf m -> signed_fit msg ->
  exists m', unpack e msg m = Ok (m', Some (VI U32 (g_id msg))) /\
    (forall sg, In sg (g_sigs msg) -> s_signed sg = false -> exact_layout sg ->
       field_is m' sg (raw_value (s_order sg) (s_start sg) (s_len sg) d)) /\
    (forall sg, In sg (g_sigs msg) -> s_signed sg = false ->
       exists z, field_is m' sg z /\ 0 <= z < 2 ^ s_len sg /\
         forall k, 0 <= k < s_len sg -> Z.testbit z k = negb (dropped sg k) && payload_bit d (spos sg k)).
Proof.
  intros e msg bits d dl tick hash hook pf m R SF. destruct (receive_run _ _ _ _ _ _ _ _ _ _ R SF) as (m' & RUN & U & _).
  exists m'. split; [exact RUN|]. split; intros sg I S.
  - intros X. pose proof (ur_fields _ _ _ _ _ _ _ _ U sg I X) as F. unfold sig_value, decoded in F. now rewrite S in F.
  - destruct (ur_range _ _ _ _ _ _ _ _ U sg I) as (z & F & C & B). exists z. rewrite S in C. auto.
Qed.

Lemma unpack_signed : forall e msg bits d dl tick hash hook pf m,
  receives e msg bits d dl tick hash hook pf m -> signed_fit msg ->
  exists m', unpack e msg m = Ok (m', Some (VI U32 (g_id msg))) /\
    forall sg, In sg (g_sigs msg) -> s_signed sg = true ->
      field_is m' sg (twos (s_len sg) (raw_value (s_order sg) (s_start sg) (s_len sg) d)).
Proof.
  intros e msg bits d dl tick hash hook pf m R SF. destruct (receive_run _ _ _ _ _ _ _ _ _ _ R SF) as (m' & RUN & U & _).
  exists m'. split; [exact RUN|]. intros sg I S.
  pose proof (ur_fields _ _ _ _ _ _ _ _ U sg I (or_introl (SF sg I S))) as F. unfold sig_value, decoded in F. now rewrite S in F.
Qed.

(** ** Pack *)

Lemma written_all : forall mx msg, g_dlc msg <= mx -> written mx msg = g_dlc msg.
Proof. intros. unfold written. lia. Qed.

(** every bit of the frame *)
Lemma pack_bits : forall e msg bits ini mx d tf hash m, sends e msg bits ini mx d tf hash m -> no_overlap msg ->
  exists m' d', pack e msg m = Ok (m', Some (VI U32 (g_id msg))) /\
    packed (e_macros e) (e_g e) msg (struct_on e) bits ini (written mx msg) d tf hash m m' d' /\
    frame e m' d' /\ List.length d' = List.length d /\ (forall x, In x d' -> is_byte x) /\
    (forall sg k, In sg (g_sigs msg) -> 0 <= k < s_len sg ->
       payload_bit d' (spos sg k) = (if spos sg k <? 8 * written mx msg then Z.testbit ini (spos sg k mod 8) else payload_bit d (spos sg k))
                                    || Z.testbit (value m' sg) k) /\
    (forall p, 0 <= p < 8 * Z.of_nat (List.length d) -> (forall sg, In sg (g_sigs msg) -> ~ sig_covers sg p) ->
       payload_bit d' p = if p <? 8 * written mx msg then Z.testbit ini (p mod 8) else payload_bit d p).
Proof.
  intros e msg bits ini mx d tf hash m S NO. destruct (send_run _ _ _ _ _ _ _ _ _ S) as (m' & d' & RUN & P).
  pose proof (sends_msg _ _ _ _ _ _ _ _ _ S) as MO. pose proof (mo_dlc _ MO) as DL.
  destruct (sn_data _ _ _ _ _ _ _ _ _ S) as (_ & _ & LD). destruct (sn_max _ _ _ _ _ _ _ _ _ S) as [_ MX].
  assert (W : 0 <= written mx msg <= Z.of_nat (List.length d)) by (unfold written; lia).
  pose proof (pk_data _ _ _ _ _ _ _ _ _ _ _ _ _ P) as C.
  assert (LI : List.length (initialised ini (written mx msg) d) = List.length d).
  { unfold initialised. rewrite app_length, repeat_length, skipn_length. lia. }
  exists m', d'. split; [exact RUN|]. split; [exact P|]. split; [apply (pk_buffer _ _ _ _ _ _ _ _ _ _ _ _ _ P)|].
  split; [rewrite (co_len _ _ _ _ C); exact LI|]. split; [apply (co_bytes _ _ _ _ C)|]. split.
  - intros sg k I K. pose proof (pos_in msg sg k MO I K). rewrite (composed_covered msg _ _ _ sg k MO NO C) by (auto; lia).
    rewrite payload_bit_initialised by lia. reflexivity.
  - intros p B N. rewrite (composed_uncovered msg _ _ _ p C) by (auto; lia). rewrite payload_bit_initialised by lia. reflexivity.
Qed.

Lemma plain_value : forall e msg bits ini vd d tf hash m m' d' sg,
  packed (e_macros e) (e_g e) msg (struct_on e) bits ini vd d tf hash m m' d' ->
  In sg (g_sigs msg) -> plain e msg sg -> value m' sg = value m sg.
Proof. intros e msg bits ini vd d tf hash m m' d' sg P I (A & B & C). eapply pk_plain; eauto. Qed.

Lemma pack_layout : forall e msg bits mx d tf hash m, sends e msg bits 0 mx d tf hash m -> g_dlc msg <= mx -> no_overlap msg ->
  exists m' d', pack e msg m = Ok (m', Some (VI U32 (g_id msg))) /\ frame e m' d' /\
    (forall sg, In sg (g_sigs msg) -> plain e msg sg -> value m' sg = value m sg) /\
    (forall sg k, In sg (g_sigs msg) -> 0 <= k < s_len sg -> payload_bit d' (spos sg k) = Z.testbit (value m' sg) k) /\
    (forall p, 0 <= p < 8 * g_dlc msg -> (forall sg, In sg (g_sigs msg) -> ~ sig_covers sg p) -> payload_bit d' p = false).
Proof.
  intros e msg bits mx d tf hash m S MX NO. pose proof (sends_msg _ _ _ _ _ _ _ _ _ S) as MO.
  destruct (sn_data _ _ _ _ _ _ _ _ _ S) as (_ & _ & LD).
  destruct (pack_bits _ _ _ _ _ _ _ _ _ S NO) as (m' & d' & RUN & P & F & _ & _ & C & U).
  exists m', d'. split; [exact RUN|]. split; [exact F|]. split; [intros; eapply plain_value; eauto|].
  rewrite (written_all mx msg MX) in *. split.
  - intros sg k I K. pose proof (pos_in msg sg k MO I K). rewrite C by auto. replace (_ <? _) with true by lia. now rewrite Z.bits_0.
  - intros p B N. rewrite U by (auto; lia). replace (_ <? _) with true by lia. apply Z.bits_0.
Qed.

(** the value a receiver finds *)
Lemma packed_value : forall msg d' sg z, msg_ok msg -> In sg (g_sigs msg) ->
  (forall k, 0 <= k < s_len sg -> payload_bit d' (spos sg k) = Z.testbit z k) ->
  carries (s_signed sg) (s_len sg) z -> sig_value sg d' = z.
Proof.
  intros msg d' sg z MO I B C. pose proof (ok_len _ _ (mo_sigs _ MO sg I)) as L. unfold sig_value, decoded.
  rewrite (raw_value_bits _ _ _ _ z) by (auto; lia). apply mod_value; [lia|exact C].
Qed.

(** payloads that agree on the first [n] bytes *)
Lemma payload_bit_firstn : forall d d' n p, firstn n d = firstn n d' -> 0 <= p < 8 * Z.of_nat n -> payload_bit d p = payload_bit d' p.
Proof.
  intros d d' n p E P. unfold payload_bit. f_equal.
  assert (X : forall l : list Z, nth (Z.to_nat (p / 8)) l 0 = nth (Z.to_nat (p / 8)) (firstn n l) 0).
  { intros l. assert (LT : (Z.to_nat (p / 8) < n)%nat) by lia. revert LT. generalize (Z.to_nat (p / 8)). clear.
    revert l. induction n as [|n IH]; intros l k LT; [lia|]. destruct l as [|x l]; [now destruct k|]. destruct k as [|k]; [reflexivity|].
    cbn [nth firstn]. apply IH. lia. }
  rewrite X, (X d'). now rewrite E.
Qed.

Lemma roundtrip : forall e msg bits mx d tf hash m, sends e msg bits 0 mx d tf hash m -> g_dlc msg <= mx -> no_overlap msg ->
  exists m' d', pack e msg m = Ok (m', Some (VI U32 (g_id msg))) /\ frame e m' d' /\
    (forall sg, In sg (g_sigs msg) -> plain e msg sg -> value m' sg = value m sg) /\
    forall e2 bits2 d2 dl tick hash2 hook pf m2, receives e2 msg bits2 d2 dl tick hash2 hook pf m2 -> signed_fit msg ->
      firstn (Z.to_nat (g_dlc msg)) d2 = firstn (Z.to_nat (g_dlc msg)) d' ->
      exists m2', unpack e2 msg m2 = Ok (m2', Some (VI U32 (g_id msg))) /\
        forall sg, In sg (g_sigs msg) -> exact_layout sg -> carries (s_signed sg) (s_len sg) (value m' sg) ->
          field_is m2' sg (value m' sg).
Proof.
  intros e msg bits mx d tf hash m S MX NO. pose proof (sends_msg _ _ _ _ _ _ _ _ _ S) as MO. pose proof (mo_dlc _ MO).
  destruct (pack_layout _ _ _ _ _ _ _ _ S MX NO) as (m' & d' & RUN & F & PL & C & U).
  exists m', d'. split; [exact RUN|]. split; [exact F|]. split; [exact PL|].
  intros e2 bits2 d2 dl tick hash2 hook pf m2 R SF FN. destruct (receive_run _ _ _ _ _ _ _ _ _ _ R SF) as (m2' & RUN2 & UU & _).
  exists m2'. split; [exact RUN2|]. intros sg I X CA. pose proof (ur_fields _ _ _ _ _ _ _ _ UU sg I X) as FI.
  rewrite (packed_value msg d2 sg (value m' sg) MO I) in FI; auto.
  intros k K. pose proof (pos_in msg sg k MO I K). rewrite (payload_bit_firstn d2 d' (Z.to_nat (g_dlc msg))) by (auto; lia). auto.
Qed.

Lemma back_to_payload : forall e msg bits d dl tick hash hook pf m, receives e msg bits d dl tick hash hook pf m -> signed_fit msg -> no_overlap msg ->
  exists m1, unpack e msg m = Ok (m1, Some (VI U32 (g_id msg))) /\
    forall e2 bits2 mx old tf hash2 m2, sends e2 msg bits2 0 mx old tf hash2 m2 -> g_dlc msg <= mx ->
      exists m3 d', pack e2 msg m2 = Ok (m3, Some (VI U32 (g_id msg))) /\ frame e2 m3 d' /\
        (forall p sg, In sg (g_sigs msg) -> exact_layout sg -> plain e2 msg sg -> value m2 sg = value m1 sg -> sig_covers sg p ->
           payload_bit d' p = payload_bit d p) /\
        (forall p, 0 <= p < 8 * g_dlc msg -> (forall sg, In sg (g_sigs msg) -> ~ sig_covers sg p) -> payload_bit d' p = false).
Proof.
  intros e msg bits d dl tick hash hook pf m R SF NO. destruct (receive_run _ _ _ _ _ _ _ _ _ _ R SF) as (m1 & RUN & U & _).
  exists m1. split; [exact RUN|]. intros e2 bits2 mx old tf hash2 m2 S MX.
  destruct (pack_layout _ _ _ _ _ _ _ _ S MX NO) as (m3 & d' & RUN2 & F & PL & C & UC).
  exists m3, d'. split; [exact RUN2|]. split; [exact F|]. split; [|exact UC].
  intros p sg I EX P E (k & K & <-). rewrite C by auto. rewrite PL, E by auto.
  pose proof (ur_fields _ _ _ _ _ _ _ _ U sg I EX) as FI. apply field_value in FI. rewrite FI. apply decoded_testbit. lia.
Qed.

Lemma unpack_isolated : forall e msg bits da db dl tick hash hook pf ma mb,
  receives e msg bits da dl tick hash hook pf ma -> receives e msg bits db dl tick hash hook pf mb -> signed_fit msg ->
  exists ma' mb', unpack e msg ma = Ok (ma', Some (VI U32 (g_id msg))) /\ unpack e msg mb = Ok (mb', Some (VI U32 (g_id msg))) /\
    forall sg, In sg (g_sigs msg) -> (forall p, sig_covers sg p -> payload_bit da p = payload_bit db p) ->
      exists z, field_is ma' sg z /\ field_is mb' sg z.
Proof.
  intros e msg bits da db dl tick hash hook pf ma mb RA RB SF. pose proof (receives_msg _ _ _ _ _ _ _ _ _ _ RA) as MO.
  destruct (receive_run _ _ _ _ _ _ _ _ _ _ RA SF) as (ma' & RUNA & UA & _).
  destruct (receive_run _ _ _ _ _ _ _ _ _ _ RB SF) as (mb' & RUNB & UB' & _).
  exists ma', mb'. split; [exact RUNA|]. split; [exact RUNB|]. intros sg I E.
  destruct (ur_range _ _ _ _ _ _ _ _ UA sg I) as (z & FA & CA & BA). destruct (ur_range _ _ _ _ _ _ _ _ UB' sg I) as (z' & FB & CB & BB).
  exists z. split; [exact FA|]. replace z with z'; [exact FB|].
  pose proof (ok_len _ _ (mo_sigs _ MO sg I)) as L.
  rewrite <- (mod_value (s_signed sg) (s_len sg) z') by (auto; lia). rewrite <- (mod_value (s_signed sg) (s_len sg) z) by (auto; lia).
  assert (M : z' mod 2 ^ s_len sg = z mod 2 ^ s_len sg); [|now rewrite M].
  apply Z.bits_inj'. intros k K. rewrite !mod_testbit by lia. destruct (Z.ltb_spec k (s_len sg)) as [KL|KL]; [|reflexivity].
  rewrite BA, BB by lia. cbn [andb]. f_equal. symmetry. apply E. exists k. auto.
Qed.

(** ** What determines a frame *)

Lemma low_bits : forall n a b k, a mod 2 ^ n = b mod 2 ^ n -> 0 <= k < n -> Z.testbit a k = Z.testbit b k.
Proof. intros n a b k E K. rewrite <- (Z.mod_pow2_bits_low a n k), <- (Z.mod_pow2_bits_low b n k) by lia. now rewrite E. Qed.

Lemma firstn_bits : forall n d d', (n <= List.length d)%nat -> (n <= List.length d')%nat ->
  (forall x, In x d -> is_byte x) -> (forall x, In x d' -> is_byte x) ->
  (forall p, 0 <= p < 8 * Z.of_nat n -> payload_bit d p = payload_bit d' p) -> firstn n d = firstn n d'.
Proof.
  intros n d d' L L' B B' H. apply bytes_ext.
  - rewrite !firstn_length. lia.
  - intros x I. apply B. rewrite <- (firstn_skipn n d). apply in_or_app. auto.
  - intros x I. apply B'. rewrite <- (firstn_skipn n d'). apply in_or_app. auto.
  - intros p P. rewrite firstn_length in P. 
    rewrite (payload_bit_firstn (firstn n d) d n) by (rewrite ?firstn_firstn, ?Nat.min_id; auto; lia).
    rewrite (payload_bit_firstn (firstn n d') d' n) by (rewrite ?firstn_firstn, ?Nat.min_id; auto; lia). apply H. lia.
Qed.

Lemma composed_same : forall msg ini da db V W da' db', msg_ok msg ->
  g_dlc msg <= Z.of_nat (List.length da) -> g_dlc msg <= Z.of_nat (List.length db) ->
  composed msg (initialised ini (g_dlc msg) da) V da' -> composed msg (initialised ini (g_dlc msg) db) W db' ->
  (forall sg k, In sg (g_sigs msg) -> 0 <= k < s_len sg -> Z.testbit (V sg) k = Z.testbit (W sg) k) ->
  firstn (Z.to_nat (g_dlc msg)) da' = firstn (Z.to_nat (g_dlc msg)) db'.
Proof.
  intros msg ini da db V W da' db' MO LA LB [CLA CBA CTA] [CLB CBB CTB] E. pose proof (mo_dlc _ MO) as DL.
  assert (LI : forall d : list Z, g_dlc msg <= Z.of_nat (List.length d) -> List.length (initialised ini (g_dlc msg) d) = List.length d).
  { intros d L. unfold initialised. rewrite app_length, repeat_length, skipn_length. lia. }
  rewrite (LI da LA) in CLA. rewrite (LI db LB) in CLB.
  apply firstn_bits; auto; try lia. intros p P. apply testbit_ext_iff. rewrite CTA, CTB by lia.
  rewrite !payload_bit_initialised by lia. replace (p <? 8 * g_dlc msg) with true by lia.
  assert (S : set_by msg V p <-> set_by msg W p); [|tauto].
  split; intros (sg & k & I & K & X & T); exists sg, k; rewrite ?E in T by auto; rewrite ?E by auto; auto.
Qed.

Lemma sig_dec : forall msg (o : option signal) sg, msg_ok msg -> (forall x, o = Some x -> In x (g_sigs msg)) -> In sg (g_sigs msg) ->
  {o = Some sg} + {o <> Some sg}.
Proof.
  intros msg o sg MO H I. destruct o as [x|]; [|right; discriminate]. destruct (string_dec (s_name x) (s_name sg)) as [E|E].
  - left. f_equal. eapply name_inj; eauto.
  - right. intros X. injection X. intros ->. contradiction.
Qed.

Lemma counter_in : forall M g msg sg, counter_on M g msg = Some sg -> In sg (g_sigs msg).
Proof. intros M g msg sg E. unfold counter_on in E. destruct (defined _ _); [now apply roll_in|discriminate]. Qed.
Lemma checksum_in : forall M g msg sg, checksum_on M g msg = Some sg -> In sg (g_sigs msg).
Proof. intros M g msg sg E. unfold checksum_on in E. destruct (defined _ _); [now apply csm_in|discriminate]. Qed.

Lemma covers_dec : forall msg p, (exists sg, In sg (g_sigs msg) /\ sig_covers sg p) \/ (forall sg, In sg (g_sigs msg) -> ~ sig_covers sg p).
Proof.
  intros msg p. assert (DC : forall sg, {sig_covers sg p} + {~ sig_covers sg p}).
  { intros sg. destruct (existsb (fun k => spos sg (Z.of_nat k) =? p) (seq 0 (Z.to_nat (s_len sg)))) eqn:E.
    - left. apply existsb_exists in E. destruct E as (k & K & E). apply in_seq in K. exists (Z.of_nat k). lia.
    - right. intros (k & K & E'). assert (existsb (fun k => spos sg (Z.of_nat k) =? p) (seq 0 (Z.to_nat (s_len sg))) = true); [|congruence].
      apply existsb_exists. exists (Z.to_nat k). split; [apply in_seq; lia|]. rewrite Z2Nat.id by lia. lia. }
  clear - DC. induction (g_sigs msg) as [|x l IH]; [right; contradiction|]. destruct (DC x) as [H|H].
  - left. exists x. split; [now left|exact H].
  - destruct IH as [(sg & I & C)|IH]; [left; exists sg; split; [now right|exact C]|right]. intros sg [->|I]; auto.
Qed.
Lemma pack_isolated : forall e msg bits ini mx da db tfa tfb hasha hashb ma mb sg0,
  sends e msg bits ini mx da tfa hasha ma -> sends e msg bits ini mx db tfb hashb mb -> g_dlc msg <= mx -> no_overlap msg ->
  (forall sg, In sg (g_sigs msg) -> sg <> sg0 -> value ma sg = value mb sg /\ tfa sg = tfb sg) ->
  exists ma' da' mb' db',
    pack e msg ma = Ok (ma', Some (VI U32 (g_id msg))) /\ frame e ma' da' /\
    pack e msg mb = Ok (mb', Some (VI U32 (g_id msg))) /\ frame e mb' db' /\
    forall p, 0 <= p < 8 * g_dlc msg -> ~ sig_covers sg0 p ->
      (forall cs, checksum_on (e_macros e) (e_g e) msg = Some cs -> ~ sig_covers cs p) -> payload_bit da' p = payload_bit db' p.
Proof.
  intros e msg bits ini mx da db tfa tfb hasha hashb ma mb sg0 SA SB MX NO V. pose proof (sends_msg _ _ _ _ _ _ _ _ _ SA) as MO.
  destruct (pack_bits _ _ _ _ _ _ _ _ _ SA NO) as (ma' & da' & RA & PA & FA & _ & _ & CA & UA).
  destruct (pack_bits _ _ _ _ _ _ _ _ _ SB NO) as (mb' & db' & RB & PB & FB & _ & _ & CB & UB').
  rewrite (written_all mx msg MX) in *.
  destruct (sn_data _ _ _ _ _ _ _ _ _ SA) as (_ & _ & LA). destruct (sn_data _ _ _ _ _ _ _ _ _ SB) as (_ & _ & LB).
  exists ma', da', mb', db'. do 4 (split; [assumption|]). intros p P N NC.
  destruct (covers_dec msg p) as [(sg & I & k & K & <-)|D].
  - destruct (V sg I) as [E1 E2]; [intros ->; apply N; now exists k|].
    assert (CS : checksum_on (e_macros e) (e_g e) msg <> Some sg) by (intros X; apply (NC sg X); now exists k).
    rewrite CA, CB by auto. replace (spos sg k <? 8 * g_dlc msg) with true by (unfold spos in *; lia). f_equal.
    destruct (converted (e_macros e) (e_g e) msg sg) eqn:CV.
    + rewrite (pk_scaled _ _ _ _ _ _ _ _ _ _ _ _ _ PA), (pk_scaled _ _ _ _ _ _ _ _ _ _ _ _ _ PB) by auto. now rewrite E2.
    + destruct (sig_dec msg (counter_on (e_macros e) (e_g e) msg) sg MO (counter_in _ _ msg) I) as [CT|CT].
      * apply (low_bits (s_len sg)); [|lia].
        rewrite (proj1 (pk_counter _ _ _ _ _ _ _ _ _ _ _ _ _ PA sg CT CS CV)), (proj1 (pk_counter _ _ _ _ _ _ _ _ _ _ _ _ _ PB sg CT CS CV)). now rewrite E1.
      * rewrite (pk_plain _ _ _ _ _ _ _ _ _ _ _ _ _ PA), (pk_plain _ _ _ _ _ _ _ _ _ _ _ _ _ PB) by auto. now rewrite E1.
  - rewrite UA, UB' by (auto; lia). replace (p <? 8 * g_dlc msg) with true by lia. reflexivity.
Qed.

Lemma packed_same : forall e1 e2 msg bits1 bits2 ini da db tf hash ma mb ma' mb' da' db', msg_ok msg ->
  g_dlc msg <= Z.of_nat (List.length da) -> g_dlc msg <= Z.of_nat (List.length db) ->
  same_options e1 e2 msg ->
  packed (e_macros e1) (e_g e1) msg (struct_on e1) bits1 ini (g_dlc msg) da tf hash ma ma' da' ->
  packed (e_macros e2) (e_g e2) msg (struct_on e2) bits2 ini (g_dlc msg) db tf hash mb mb' db' ->
  (forall sg, In sg (g_sigs msg) -> value ma sg = value mb sg) ->
  hash_of_first (Z.to_nat (g_dlc msg)) hash ->
  firstn (Z.to_nat (g_dlc msg)) da' = firstn (Z.to_nat (g_dlc msg)) db'.
Proof.
  intros e1 e2 msg bits1 bits2 ini da db tf hash ma mb ma' mb' da' db' MO LA LB (OR & OC & OV) PA PB V HF.
  assert (OTHER : forall sg k, In sg (g_sigs msg) -> checksum_on (e_macros e1) (e_g e1) msg <> Some sg -> 0 <= k < s_len sg ->
     Z.testbit (value ma' sg) k = Z.testbit (value mb' sg) k).
  { intros sg k I NC K. pose proof NC as NC'. rewrite OC in NC'.
    destruct (converted (e_macros e1) (e_g e1) msg sg) eqn:CV; pose proof CV as CV'; rewrite OV in CV' by auto.
    - rewrite (pk_scaled _ _ _ _ _ _ _ _ _ _ _ _ _ PA), (pk_scaled _ _ _ _ _ _ _ _ _ _ _ _ _ PB) by auto. reflexivity.
    - destruct (sig_dec msg (counter_on (e_macros e1) (e_g e1) msg) sg MO (counter_in _ _ msg) I) as [CT|CT]; pose proof CT as CT'; rewrite OR in CT'.
      + apply (low_bits (s_len sg)); [|lia].
        rewrite (proj1 (pk_counter _ _ _ _ _ _ _ _ _ _ _ _ _ PA sg CT NC CV)), (proj1 (pk_counter _ _ _ _ _ _ _ _ _ _ _ _ _ PB sg CT' NC' CV')).
        now rewrite V.
      + rewrite (pk_plain _ _ _ _ _ _ _ _ _ _ _ _ _ PA), (pk_plain _ _ _ _ _ _ _ _ _ _ _ _ _ PB) by auto. now rewrite V. }
  apply (composed_same msg ini da db (value ma') (value mb') da' db'); auto; try apply PA; try apply PB.
  intros sg k I K. destruct (sig_dec msg (checksum_on (e_macros e1) (e_g e1) msg) sg MO (checksum_in _ _ msg) I) as [CS|CS]; [|now apply OTHER].
  pose proof CS as CS'. rewrite OC in CS'.
  destruct (pk_checksum _ _ _ _ _ _ _ _ _ _ _ _ _ PA sg CS) as (d1 & C1 & M1 & _).
  destruct (pk_checksum _ _ _ _ _ _ _ _ _ _ _ _ _ PB sg CS') as (d2 & C2 & M2 & _).
  apply (low_bits (s_len sg)); [|lia]. rewrite M1, M2. f_equal. apply HF.
  apply (composed_same msg ini da db _ _ d1 d2 MO LA LB C1 C2). intros sg' k' I' K'.
  destruct (String.eqb_spec (s_name sg') (s_name sg)) as [E|E]; [reflexivity|]. apply OTHER; auto.
  intros X. rewrite CS in X. injection X. intros ->. contradiction.
Qed.

Lemma pack_old_buffer : forall e msg bits ini mx da db tf hash ma mb,
  sends e msg bits ini mx da tf hash ma -> sends e msg bits ini mx db tf hash mb -> g_dlc msg <= mx ->
  hash_of_first (Z.to_nat (g_dlc msg)) hash ->
  (forall sg, In sg (g_sigs msg) -> value ma sg = value mb sg) ->
  exists ma' da' mb' db',
    pack e msg ma = Ok (ma', Some (VI U32 (g_id msg))) /\ frame e ma' da' /\
    pack e msg mb = Ok (mb', Some (VI U32 (g_id msg))) /\ frame e mb' db' /\
    firstn (Z.to_nat (g_dlc msg)) da' = firstn (Z.to_nat (g_dlc msg)) db'.
Proof.
  intros e msg bits ini mx da db tf hash ma mb SA SB MX HF V.
  destruct (send_run _ _ _ _ _ _ _ _ _ SA) as (ma' & da' & RA & PA). destruct (send_run _ _ _ _ _ _ _ _ _ SB) as (mb' & db' & RB & PB).
  exists ma', da', mb', db'. split; [exact RA|]. split; [apply PA|]. split; [exact RB|]. split; [apply PB|].
  rewrite (written_all mx msg MX) in *.
  apply (packed_same e e msg bits bits ini da db tf hash ma mb ma' mb' da' db'); auto.
  - eapply sends_msg; eauto.
  - apply (sn_data _ _ _ _ _ _ _ _ _ SA).
  - apply (sn_data _ _ _ _ _ _ _ _ _ SB).
  - split; [reflexivity|]. split; reflexivity.
Qed.

Lemma pack_flavours : forall e1 e2 msg bits1 bits2 ini mx d1 d2 tf hash m1 m2,
  sends e1 msg bits1 ini mx d1 tf hash m1 -> sends e2 msg bits2 ini mx d2 tf hash m2 -> g_dlc msg <= mx ->
  same_options e1 e2 msg -> hash_of_first (Z.to_nat (g_dlc msg)) hash ->
  (forall sg, In sg (g_sigs msg) -> value m1 sg = value m2 sg) ->
  exists m1' d1' m2' d2',
    pack e1 msg m1 = Ok (m1', Some (VI U32 (g_id msg))) /\ frame e1 m1' d1' /\
    pack e2 msg m2 = Ok (m2', Some (VI U32 (g_id msg))) /\ frame e2 m2' d2' /\
    firstn (Z.to_nat (g_dlc msg)) d1' = firstn (Z.to_nat (g_dlc msg)) d2' /\
    (forall p t z, In (p, t, z) (reports msg (struct_on e1)) -> m_scal m1' p = Some (LInt t, VI t z)) /\
    (forall p t z, In (p, t, z) (reports msg (struct_on e2)) -> m_scal m2' p = Some (LInt t, VI t z)).
Proof.
  intros e1 e2 msg bits1 bits2 ini mx d1 d2 tf hash m1 m2 S1 S2 MX SO HF V.
  destruct (send_run _ _ _ _ _ _ _ _ _ S1) as (m1' & d1' & R1 & P1). destruct (send_run _ _ _ _ _ _ _ _ _ S2) as (m2' & d2' & R2 & P2).
  exists m1', d1', m2', d2'. split; [exact R1|]. split; [apply P1|]. split; [exact R2|]. split; [apply P2|].
  split; [|split; [apply P1|apply P2]].
  rewrite (written_all mx msg MX) in *.
  apply (packed_same e1 e2 msg bits1 bits2 ini d1 d2 tf hash m1 m2 m1' m2' d1' d2'); auto.
  - eapply sends_msg; eauto.
  - apply (sn_data _ _ _ _ _ _ _ _ _ S1).
  - apply (sn_data _ _ _ _ _ _ _ _ _ S2).
Qed.

Lemma pack_behind : forall e msg bits ini mx d tf hash m, sends e msg bits ini mx d tf hash m ->
  exists m' d', pack e msg m = Ok (m', Some (VI U32 (g_id msg))) /\ frame e m' d' /\ List.length d' = List.length d /\
    skipn (Z.to_nat (g_dlc msg)) d' = skipn (Z.to_nat (g_dlc msg)) d.
Proof.
  intros e msg bits ini mx d tf hash m S. pose proof (sends_msg _ _ _ _ _ _ _ _ _ S) as MO. pose proof (mo_dlc _ MO) as DL.
  destruct (send_run _ _ _ _ _ _ _ _ _ S) as (m' & d' & RUN & P).
  destruct (sn_data _ _ _ _ _ _ _ _ _ S) as (_ & BY & LD). destruct (sn_max _ _ _ _ _ _ _ _ _ S) as [_ MX].
  assert (W : 0 <= written mx msg <= g_dlc msg) by (unfold written; lia).
  pose proof (pk_data _ _ _ _ _ _ _ _ _ _ _ _ _ P) as C.
  assert (LI : List.length (initialised ini (written mx msg) d) = List.length d).
  { unfold initialised. rewrite app_length, repeat_length, skipn_length. lia. }
  assert (LE : List.length d' = List.length d) by (rewrite (co_len _ _ _ _ C); exact LI).
  exists m', d'. split; [exact RUN|]. split; [apply P|]. split; [exact LE|].
  apply bytes_ext.
  - rewrite !skipn_length. lia.
  - intros x I. apply (co_bytes _ _ _ _ C). rewrite <- (firstn_skipn (Z.to_nat (g_dlc msg)) d'). apply in_or_app. auto.
  - intros x I. apply BY. rewrite <- (firstn_skipn (Z.to_nat (g_dlc msg)) d). apply in_or_app. auto.
  - intros p B. rewrite skipn_length in B.
    assert (SH : forall l : list Z, payload_bit (skipn (Z.to_nat (g_dlc msg)) l) p = payload_bit l (p + 8 * g_dlc msg)).
    { intros l. unfold payload_bit. rewrite Chunks.nth_skipn'. f_equal; [f_equal; lia|lia]. }
    rewrite !SH. rewrite (composed_uncovered msg _ _ _ _ C).
    + rewrite payload_bit_initialised by lia. replace (_ <? _) with false by lia. reflexivity.
    + lia.
    + intros sg I (k & K & E). pose proof (pos_in msg sg k MO I K). lia.
Qed.

Lemma unpack_prefix : forall e msg bits da db dl tick hash hook pf ma mb,
  receives e msg bits da dl tick hash hook pf ma -> receives e msg bits db dl tick hash hook pf mb -> signed_fit msg ->
  firstn (Z.to_nat (g_dlc msg)) da = firstn (Z.to_nat (g_dlc msg)) db ->
  exists ma' mb', unpack e msg ma = Ok (ma', Some (VI U32 (g_id msg))) /\ unpack e msg mb = Ok (mb', Some (VI U32 (g_id msg))) /\
    m_arr ma' = m_arr ma /\
    forall sg, In sg (g_sigs msg) -> exists z, field_is ma' sg z /\ field_is mb' sg z.
Proof.
  intros e msg bits da db dl tick hash hook pf ma mb RA RB SF E. pose proof (receives_msg _ _ _ _ _ _ _ _ _ _ RA) as MO.
  destruct (receive_run _ _ _ _ _ _ _ _ _ _ RA SF) as (ma1 & RUN1 & UA & _).
  destruct (unpack_isolated _ _ _ _ _ _ _ _ _ _ _ _ RA RB SF) as (ma' & mb' & RUNA & RUNB & H).
  rewrite RUN1 in RUNA. injection RUNA. intros <-.
  exists ma1, mb'. split; [exact RUN1|]. split; [exact RUNB|]. split; [apply UA|]. intros sg I. apply H; auto.
  intros p (k & K & <-). pose proof (pos_in msg sg k MO I K). apply (payload_bit_firstn _ _ (Z.to_nat (g_dlc msg))); auto; lia.
Qed.

Lemma initial_visible : forall e msg bits ini mx d tf hash m, sends e msg bits ini mx d tf hash m -> g_dlc msg <= mx -> no_overlap msg ->
  exists m' d', pack e msg m = Ok (m', Some (VI U32 (g_id msg))) /\ frame e m' d' /\
    (forall p, 0 <= p < 8 * g_dlc msg -> (forall sg, In sg (g_sigs msg) -> ~ sig_covers sg p) -> payload_bit d' p = Z.testbit ini (p mod 8)) /\
    (forall sg k, In sg (g_sigs msg) -> 0 <= k < s_len sg ->
       payload_bit d' (spos sg k) = Z.testbit (value m' sg) k || Z.testbit ini (spos sg k mod 8)).
Proof.
  intros e msg bits ini mx d tf hash m S MX NO. pose proof (sends_msg _ _ _ _ _ _ _ _ _ S) as MO.
  destruct (sn_data _ _ _ _ _ _ _ _ _ S) as (_ & _ & LD).
  destruct (pack_bits _ _ _ _ _ _ _ _ _ S NO) as (m' & d' & RUN & P & F & _ & _ & C & U).
  exists m', d'. split; [exact RUN|]. split; [exact F|]. rewrite (written_all mx msg MX) in *. split.
  - intros p B N. rewrite U by (auto; lia). now replace (_ <? _) with true by lia.
  - intros sg k I K. pose proof (pos_in msg sg k MO I K). rewrite C by auto. replace (_ <? _) with true by lia. apply orb_comm.
Qed.

Lemma identity : forall e msg bits ini mx d tf hash m, sends e msg bits ini mx d tf hash m ->
  exists m', pack e msg m = Ok (m', Some (VI U32 (g_id msg))) /\
    if struct_on e
    then int_at m' "cframe->MsgId" = Some (g_id msg) /\ int_at m' "cframe->DLC" = Some (g_dlc msg) /\ int_at m' "cframe->IDE" = Some (g_ext msg)
    else int_at m' "*_len" = Some (g_dlc msg) /\ int_at m' "*_ide" = Some (g_ext msg).
Proof.
  intros e msg bits ini mx d tf hash m S. destruct (send_run _ _ _ _ _ _ _ _ _ S) as (m' & d' & RUN & P).
  exists m'. split; [exact RUN|]. pose proof (pk_reports _ _ _ _ _ _ _ _ _ _ _ _ _ P) as R. unfold reports in R.
  destruct (struct_on e).
  - split; [|split]; unfold int_at; erewrite R; [reflexivity|cbn; eauto|reflexivity|cbn; eauto|reflexivity|cbn; eauto].
  - split; unfold int_at; erewrite R; [reflexivity|cbn; eauto|reflexivity|cbn; eauto].
Qed.
