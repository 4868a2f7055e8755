(** Properties C01-C09, C12, C13: what the emitted Unpack and Pack functions do.

    [receives] and [sends] (CodecEnv.v) describe a call of an emitted function in a program; the
    functions are run from the text the generator emits.  Payload bits are numbered as in a DBC file
    (CodecSpec.v). *)

From Coq Require Import ZArith NArith List String Ascii Bool.
From Verif Require Import Base Dbl CSyntax CSem CRun Types Formatter Settings MainGen App CodecSpec MsgSpec DriverSpec HeaderSpec CodecEnv CodecFacts Concrete Samples.
Import ListNotations.
Open Scope Z_scope.

(** ** C01.  Full claim: every unsigned field holds the number at its declared position.  That holds for
    signals of up to 32 bits and for longer ones whose least significant bit is at a byte border.  For the
    others the exact result is stated: up to 7 bits above bit 31 are lost ([dropped]). *)
Theorem C01_unpack_unsigned_partial : forall e msg bits d dl tick hash hook pf m,
  receives e msg bits d dl tick hash hook pf m -> signed_fit msg ->
  exists m', unpack e msg m = Ok (m', Some (VI U32 (g_id msg))) /\
    (forall sg, In sg (g_sigs msg) -> s_signed sg = false -> exact_layout sg ->
       field_is m' sg (raw_value (s_order sg) (s_start sg) (s_len sg) d)) /\
    (forall sg, In sg (g_sigs msg) -> s_signed sg = false ->
       exists z, field_is m' sg z /\ 0 <= z < 2 ^ s_len sg /\
         forall k, 0 <= k < s_len sg ->
           Z.testbit z k = negb (dropped sg k) && payload_bit d (sig_pos (s_order sg) (s_start sg) (s_len sg) k)).
Proof. exact unpack_unsigned. Qed.
Print Assumptions C01_unpack_unsigned_partial.

(** a signal of a sample message *)
Definition sig_at (msg : message) (i : nat) : signal :=
  nth i (g_sigs msg) (Build_signal "" "" "" 0 0 false false (Floats.SpecFloat.S754_nan) (Floats.SpecFloat.S754_nan) Intel false U8 U8 [] [] "" "" MxNone).

Definition engine_rx : mem := rx_mem engine false [171; 205; 239; 1; 133; 103; 137; 10] 8 [].
Lemma engine_receives : receives sample engine false [171; 205; 239; 1; 133; 103; 137; 10] 8 0 no_hash no_hook no_phys engine_rx.
Proof. apply simple_receives; [apply sample_program|vm_compute; auto|vm_compute; reflexivity]. Qed.
Lemma engine_signed : signed_fit engine.
Proof. intros sg I S. cbn in I. repeat (destruct I as [<-|I]; [vm_compute; try discriminate; auto|]). contradiction. Qed.
(** the theorem applies to this call, and running the text gives the values *)
Example C01_case : exists m', unpack sample engine engine_rx = Ok (m', Some (VI U32 291)) /\
  map (fun sg => (s_name sg, value m' sg)) (g_sigs engine) = [("Speed", 3290); ("Temp", -17); ("Gear", 345); ("Load_ro", 10)]%string.
Proof. eexists. split; [vm_compute; reflexivity|]. vm_compute. reflexivity. Qed.
Example C01_case_met : exists m', unpack sample engine engine_rx = Ok (m', Some (VI U32 291)) /\
  forall sg, In sg (g_sigs engine) -> s_signed sg = false -> exact_layout sg ->
    field_is m' sg (raw_value (s_order sg) (s_start sg) (s_len sg) [171; 205; 239; 1; 133; 103; 137; 10]).
Proof.
  destruct (C01_unpack_unsigned_partial _ _ _ _ _ _ _ _ _ _ engine_receives engine_signed) as (m' & A & B & _).
  exists m'. auto.
Qed.

(** a 40-bit Intel signal from bit 4 loses four bits *)
Theorem C01_unpack_unsigned_refuted : exists e msg bits d dl tick hash hook pf m sg m',
  receives e msg bits d dl tick hash hook pf m /\ signed_fit msg /\ In sg (g_sigs msg) /\ s_signed sg = false /\
  unpack e msg m = Ok (m', Some (VI U32 (g_id msg))) /\
  ~ field_is m' sg (raw_value (s_order sg) (s_start sg) (s_len sg) d).
Proof.
  exists wide, wide_msg, false, [255; 255; 255; 255; 255; 255; 255; 255], 8, 0, no_hash, no_hook, no_phys,
    (rx_mem wide_msg false [255; 255; 255; 255; 255; 255; 255; 255] 8 []), (sig_at wide_msg 0).
  eexists. split; [apply simple_receives; [apply wide_program|vm_compute; auto|vm_compute; reflexivity]|].
  split; [intros sg I S; cbn in I; destruct I as [<-|[]]; discriminate|].
  split; [vm_compute; auto|]. split; [reflexivity|]. split; [vm_compute; reflexivity|]. vm_compute. discriminate.
Qed.
Print Assumptions C01_unpack_unsigned_refuted.

(** ** C02.  Full claim: for every length up to 64.  Proved up to 32 bits, the width of the default
    helper type; beyond, the emitted code shifts by too much. *)
Theorem C02_unpack_signed_partial : forall e msg bits d dl tick hash hook pf m,
  receives e msg bits d dl tick hash hook pf m -> signed_fit msg ->
  exists m', unpack e msg m = Ok (m', Some (VI U32 (g_id msg))) /\
    forall sg, In sg (g_sigs msg) -> s_signed sg = true ->
      field_is m' sg (twos (s_len sg) (raw_value (s_order sg) (s_start sg) (s_len sg) d)).
Proof. exact unpack_signed. Qed.
Print Assumptions C02_unpack_signed_partial.

(** see [C01_case]: Temp is -17 *)
Theorem C02_unpack_signed_refuted : exists e msg bits d dl tick hash hook pf m,
  receives e msg bits d dl tick hash hook pf m /\ unpack e msg m = UB "shift count".
Proof.
  exists wide, neg_msg, false, [0; 0; 0; 0; 0; 0; 0; 0], 8, 0, no_hash, no_hook, no_phys,
    (rx_mem neg_msg false [0; 0; 0; 0; 0; 0; 0; 0] 8 []).
  split; [apply simple_receives; [apply wide_program|vm_compute; auto|vm_compute; reflexivity]|]. vm_compute. reflexivity.
Qed.
Print Assumptions C02_unpack_signed_refuted.

(** ** C03.  Full claim: for every data base, with default macros.  Proved when the emitted maximal DLC
    ([mx]) is not below the message's; the scanner may find too small a maximum (see C29).  [plain]
    signals keep the caller's value, a counter or checksum or converted signal gets its new value first. *)
Theorem C03_pack_layout_partial : forall e msg bits mx d tf hash m,
  sends e msg bits 0 mx d tf hash m -> g_dlc msg <= mx -> no_overlap msg ->
  exists m' d', pack e msg m = Ok (m', Some (VI U32 (g_id msg))) /\ frame e m' d' /\
    (forall sg, In sg (g_sigs msg) -> plain e msg sg -> value m' sg = value m sg) /\
    (forall sg k, In sg (g_sigs msg) -> 0 <= k < s_len sg ->
       payload_bit d' (sig_pos (s_order sg) (s_start sg) (s_len sg) k) = Z.testbit (value m' sg) k) /\
    (forall p, 0 <= p < 8 * g_dlc msg -> (forall sg, In sg (g_sigs msg) -> ~ sig_covers sg p) -> payload_bit d' p = false).
Proof. exact pack_layout. Qed.
Print Assumptions C03_pack_layout_partial.

Definition engine_vals : list (string * Z) := [("Speed", 3290); ("Temp", -17); ("Gear", 345); ("Load_ro", 10)]%string.
Definition engine_tx : mem := tx_mem engine false [255; 254; 253; 252; 251; 250; 249; 248; 247] engine_vals.
Lemma engine_sends : sends sample engine false 0 8 [255; 254; 253; 252; 251; 250; 249; 248; 247] no_raw no_hash engine_tx.
Proof. apply simple_sends; [apply sample_program|vm_compute; auto|vm_compute; reflexivity|vm_compute; reflexivity|vm_compute; reflexivity]. Qed.
Lemma engine_no_overlap : no_overlap engine.
Proof. apply no_overlapb_ok. vm_compute. reflexivity. Qed.
Example C03_case : exists m', pack sample engine engine_tx = Ok (m', Some (VI U32 291)) /\
  frame sample m' [160; 205; 239; 1; 5; 100; 0; 10; 247].
Proof. eexists. split; [vm_compute; reflexivity|]. vm_compute. reflexivity. Qed.

(** with a single message the emitted maximum is 0 and nothing is cleared *)
Definition only_tx (b : Z) : mem := tx_mem only false [b; b] [("Low", 5)]%string.
Lemma only_sends : forall b, In b [0; 255] -> sends single only false 0 0 [b; b] no_raw no_hash (only_tx b).
Proof.
  intros b [<-|[<-|[]]]; (apply simple_sends; [apply single_program|vm_compute; auto|vm_compute; reflexivity|vm_compute; reflexivity|vm_compute; reflexivity]).
Qed.
Theorem C03_pack_layout_refuted : exists e msg bits mx d tf hash m m' d' sg k,
  sends e msg bits 0 mx d tf hash m /\ no_overlap msg /\ e_conf e = [] /\
  pack e msg m = Ok (m', Some (VI U32 (g_id msg))) /\ frame e m' d' /\ In sg (g_sigs msg) /\ 0 <= k < s_len sg /\
  payload_bit d' (sig_pos (s_order sg) (s_start sg) (s_len sg) k) <> Z.testbit (value m' sg) k.
Proof.
  exists single, only, false, 0, [255; 255], no_raw, no_hash, (only_tx 255). do 2 eexists.
  exists (sig_at only 0), 1.
  split; [apply only_sends; cbn; auto|]. split; [apply no_overlapb_ok; vm_compute; reflexivity|]. split; [reflexivity|].
  split; [vm_compute; reflexivity|]. split; [vm_compute; reflexivity|]. split; [vm_compute; auto|]. split; [vm_compute; split; congruence|].
  vm_compute. discriminate.
Qed.
Print Assumptions C03_pack_layout_refuted.

(** ** C04.  The sender and the receiver may be different programs with the same message.  Full claim:
    for every layout; proved for [exact_layout]s, with the restriction of C03 on the maximal DLC. *)
Theorem C04_unpack_pack_partial : forall e msg bits mx d tf hash m,
  sends e msg bits 0 mx d tf hash m -> g_dlc msg <= mx -> no_overlap msg ->
  exists m' d', pack e msg m = Ok (m', Some (VI U32 (g_id msg))) /\ frame e m' d' /\
    (forall sg, In sg (g_sigs msg) -> plain e msg sg -> value m' sg = value m sg) /\
    forall e2 bits2 d2 dl tick hash2 hook pf m2,
      receives e2 msg bits2 d2 dl tick hash2 hook pf m2 -> signed_fit msg ->
      firstn (Z.to_nat (g_dlc msg)) d2 = firstn (Z.to_nat (g_dlc msg)) d' ->
      exists m2', unpack e2 msg m2 = Ok (m2', Some (VI U32 (g_id msg))) /\
        forall sg, In sg (g_sigs msg) -> exact_layout sg -> carries (s_signed sg) (s_len sg) (value m' sg) ->
          field_is m2' sg (value m' sg).
Proof. exact roundtrip. Qed.
Print Assumptions C04_unpack_pack_partial.

(** the frame of [C03_case] received: every hypothesis is met *)
Definition engine_back : mem := rx_mem engine false [160; 205; 239; 1; 5; 100; 0; 10] 8 [].
Example C04_case : receives sample engine false [160; 205; 239; 1; 5; 100; 0; 10] 8 0 no_hash no_hook no_phys engine_back /\
  (forall sg, In sg (g_sigs engine) -> exact_layout sg /\ plain sample engine sg /\ carries (s_signed sg) (s_len sg) (value engine_tx sg)) /\
  exists m', unpack sample engine engine_back = Ok (m', Some (VI U32 291)) /\
    map (fun sg => (s_name sg, value m' sg)) (g_sigs engine) = engine_vals.
Proof.
  split; [apply simple_receives; [apply sample_program|vm_compute; auto|vm_compute; reflexivity]|]. split.
  - intros sg I. split; [|split].
    + cbn in I. repeat (destruct I as [<-|I]; [left; vm_compute; discriminate|]). contradiction.
    + apply simple_plain; [vm_compute; reflexivity|exact I].
    + cbn in I. repeat (destruct I as [<-|I]; [vm_compute; split; congruence|]). contradiction.
  - eexists. split; [vm_compute; reflexivity|]. vm_compute. reflexivity.
Qed.

(** the 40-bit signal again: what is packed is not what is unpacked *)
Definition wide_tx : mem := tx_mem wide_msg false [0; 0; 0; 0; 0; 0; 0; 0] [("W", 2 ^ 40 - 1)]%string.
Definition wide_rx (d : list Z) : mem := rx_mem wide_msg false d 8 [].
Theorem C04_unpack_pack_refuted : exists e msg bits mx d tf hash m m' d' dl tick hash2 hook pf m2 m2' sg,
  sends e msg bits 0 mx d tf hash m /\ g_dlc msg <= mx /\ no_overlap msg /\ pack e msg m = Ok (m', Some (VI U32 (g_id msg))) /\
  frame e m' d' /\ receives e msg bits d' dl tick hash2 hook pf m2 /\ signed_fit msg /\
  unpack e msg m2 = Ok (m2', Some (VI U32 (g_id msg))) /\ In sg (g_sigs msg) /\ plain e msg sg /\
  carries (s_signed sg) (s_len sg) (value m sg) /\ value m2' sg <> value m sg.
Proof.
  exists wide, wide_msg, false, 8, [0; 0; 0; 0; 0; 0; 0; 0], no_raw, no_hash, wide_tx. eexists.
  exists [240; 255; 255; 255; 255; 15; 0; 0], 8, 0, no_hash, no_hook, no_phys, (wide_rx [240; 255; 255; 255; 255; 15; 0; 0]).
  eexists. exists (sig_at wide_msg 0).
  split; [apply simple_sends; [apply wide_program|vm_compute; auto|vm_compute; reflexivity|vm_compute; reflexivity|vm_compute; reflexivity]|].
  split; [vm_compute; discriminate|]. split; [apply no_overlapb_ok; vm_compute; reflexivity|]. split; [vm_compute; reflexivity|].
  split; [vm_compute; reflexivity|]. split; [apply simple_receives; [apply wide_program|vm_compute; auto|vm_compute; reflexivity]|].
  split; [intros sg I S; cbn in I; destruct I as [<-|[]]; discriminate|]. split; [vm_compute; reflexivity|]. split; [vm_compute; auto|].
  split; [apply simple_plain; vm_compute; auto|]. split; [vm_compute; split; congruence|]. vm_compute. discriminate.
Qed.
Print Assumptions C04_unpack_pack_refuted.

(** ** C05.  Full claim: for every signal.  Proved for the signals with an [exact_layout] that Pack takes over from the struct
    ([plain]), with the restriction of C03 on the maximal DLC; the other signals of the message may be of any kind.  Refuted
    for a 40-bit signal off a byte border, and for scaled signals with conversion switched on (C56_exact_refuted). *)
Theorem C05_pack_unpack_partial : forall e msg bits d dl tick hash hook pf m,
  receives e msg bits d dl tick hash hook pf m -> signed_fit msg -> no_overlap msg ->
  exists m1, unpack e msg m = Ok (m1, Some (VI U32 (g_id msg))) /\
    forall e2 bits2 mx old tf hash2 m2,
      sends e2 msg bits2 0 mx old tf hash2 m2 -> g_dlc msg <= mx ->
      exists m3 d', pack e2 msg m2 = Ok (m3, Some (VI U32 (g_id msg))) /\ frame e2 m3 d' /\
        (forall p sg, In sg (g_sigs msg) -> exact_layout sg -> plain e2 msg sg -> value m2 sg = value m1 sg -> sig_covers sg p ->
           payload_bit d' p = payload_bit d p) /\
        (forall p, 0 <= p < 8 * g_dlc msg -> (forall sg, In sg (g_sigs msg) -> ~ sig_covers sg p) -> payload_bit d' p = false).
Proof. exact back_to_payload. Qed.
Print Assumptions C05_pack_unpack_partial.
(** [engine_receives] with [engine_sends] meet the hypotheses: the values of [C01_case] are those packed in [C03_case] *)
Example C05_case : exists m1, unpack sample engine engine_rx = Ok (m1, Some (VI U32 291)) /\
  forall sg, In sg (g_sigs engine) -> plain sample engine sg /\ value engine_tx sg = value m1 sg.
Proof.
  eexists. split; [vm_compute; reflexivity|]. intros sg I. split; [apply simple_plain; [vm_compute; reflexivity|exact I]|].
  cbn in I. repeat (destruct I as [<-|I]; [vm_compute; reflexivity|]). contradiction.
Qed.

(** forty ones are unpacked, and four of them are lost; the same struct is packed again *)
Theorem C05_pack_unpack_refuted : exists e msg bits d dl tick hash hook pf m m1 mx old tf hash2 m2 m3 d' sg p,
  receives e msg bits d dl tick hash hook pf m /\ signed_fit msg /\ no_overlap msg /\ unpack e msg m = Ok (m1, Some (VI U32 (g_id msg))) /\
  sends e msg bits 0 mx old tf hash2 m2 /\ g_dlc msg <= mx /\
  (forall sg, In sg (g_sigs msg) -> plain e msg sg /\ value m2 sg = value m1 sg) /\
  pack e msg m2 = Ok (m3, Some (VI U32 (g_id msg))) /\ frame e m3 d' /\
  In sg (g_sigs msg) /\ sig_covers sg p /\ payload_bit d' p <> payload_bit d p.
Proof.
  exists wide, wide_msg, false, [240; 255; 255; 255; 255; 15; 0; 0], 8, 0, no_hash, no_hook, no_phys, (wide_rx [240; 255; 255; 255; 255; 15; 0; 0]). eexists.
  exists 8, [0; 0; 0; 0; 0; 0; 0; 0], no_raw, no_hash, (tx_mem wide_msg false [0; 0; 0; 0; 0; 0; 0; 0] [("W", 2 ^ 40 - 1 - 15 * 2 ^ 32)]%string). do 2 eexists. exists (sig_at wide_msg 0), 36.
  split; [apply simple_receives; [apply wide_program|vm_compute; auto|vm_compute; reflexivity]|].
  split; [intros sg I S; cbn in I; destruct I as [<-|[]]; discriminate|]. split; [apply no_overlapb_ok; vm_compute; reflexivity|].
  split; [vm_compute; reflexivity|].
  split; [apply simple_sends; [apply wide_program|vm_compute; auto|vm_compute; reflexivity|vm_compute; reflexivity|vm_compute; reflexivity]|].
  split; [vm_compute; discriminate|].
  split; [intros sg I; split; [apply simple_plain; [vm_compute; reflexivity|exact I]|cbn in I; destruct I as [<-|[]]; vm_compute; reflexivity]|].
  split; [vm_compute; reflexivity|]. split; [vm_compute; reflexivity|]. split; [vm_compute; auto|].
  split; [exists 32; split; [vm_compute; split; congruence|vm_compute; reflexivity]|]. vm_compute. discriminate.
Qed.
Print Assumptions C05_pack_unpack_refuted.

(** ** C06.  Packing: for every signal, with a maximal DLC as in C03 (else old bits stay).  A checksum depends on everything by
    design.  Counters and converted signals may be there: [tfa] and [tfb] are the conversions of the two calls.
    Unpacking: for every layout. *)
Theorem C06_pack_isolated_partial : forall e msg bits ini mx da db tfa tfb hasha hashb ma mb sg0,
  sends e msg bits ini mx da tfa hasha ma -> sends e msg bits ini mx db tfb hashb mb -> g_dlc msg <= mx -> no_overlap msg ->
  (forall sg, In sg (g_sigs msg) -> sg <> sg0 -> value ma sg = value mb sg /\ tfa sg = tfb sg) ->
  exists ma' da' mb' db',
    pack e msg ma = Ok (ma', Some (VI U32 (g_id msg))) /\ frame e ma' da' /\
    pack e msg mb = Ok (mb', Some (VI U32 (g_id msg))) /\ frame e mb' db' /\
    forall p, 0 <= p < 8 * g_dlc msg -> ~ sig_covers sg0 p ->
      (forall cs, checksum_on (e_macros e) (e_g e) msg = Some cs -> ~ sig_covers cs p) -> payload_bit da' p = payload_bit db' p.
Proof. exact pack_isolated. Qed.
Print Assumptions C06_pack_isolated_partial.

Theorem C06_unpack_isolated : forall e msg bits da db dl tick hash hook pf ma mb,
  receives e msg bits da dl tick hash hook pf ma -> receives e msg bits db dl tick hash hook pf mb -> signed_fit msg ->
  exists ma' mb', unpack e msg ma = Ok (ma', Some (VI U32 (g_id msg))) /\ unpack e msg mb = Ok (mb', Some (VI U32 (g_id msg))) /\
    forall sg, In sg (g_sigs msg) -> (forall p, sig_covers sg p -> payload_bit da p = payload_bit db p) ->
      exists z, field_is ma' sg z /\ field_is mb' sg z.
Proof. exact unpack_isolated. Qed.
Print Assumptions C06_unpack_isolated.

(** only Gear differs: 345 becomes 1 *)
Definition engine_tx2 : mem := tx_mem engine false [1; 1; 1; 1; 1; 1; 1; 1] [("Speed", 3290); ("Temp", -17); ("Gear", 1); ("Load_ro", 10)]%string.
Example C06_case : sends sample engine false 0 8 [1; 1; 1; 1; 1; 1; 1; 1] no_raw no_hash engine_tx2 /\
  exists m', pack sample engine engine_tx2 = Ok (m', Some (VI U32 291)) /\ frame sample m' [160; 205; 239; 1; 0; 4; 0; 10].
Proof.
  split; [apply simple_sends; [apply sample_program|vm_compute; auto|vm_compute; reflexivity|vm_compute; reflexivity|vm_compute; reflexivity]|].
  eexists. split; vm_compute; reflexivity.
Qed.

(** ** C07.  Full claim: for every data base.  Proved when the emitted maximal DLC is large enough; the
    user's hash function must not look behind the frame. *)
Theorem C07_old_buffer_partial : forall e msg bits ini mx da db tf hash ma mb,
  sends e msg bits ini mx da tf hash ma -> sends e msg bits ini mx db tf hash mb -> g_dlc msg <= mx ->
  hash_of_first (Z.to_nat (g_dlc msg)) hash ->
  (forall sg, In sg (g_sigs msg) -> value ma sg = value mb sg) ->
  exists ma' da' mb' db',
    pack e msg ma = Ok (ma', Some (VI U32 (g_id msg))) /\ frame e ma' da' /\
    pack e msg mb = Ok (mb', Some (VI U32 (g_id msg))) /\ frame e mb' db' /\
    firstn (Z.to_nat (g_dlc msg)) da' = firstn (Z.to_nat (g_dlc msg)) db'.
Proof. exact pack_old_buffer. Qed.
Print Assumptions C07_old_buffer_partial.

(** A whole program run from the DBC text: with one message, or for the last message of a file when it
    is the longest, old bytes stay in the frame. *)
Theorem C07_old_buffer_refuted : exists e msg bits mx da db tf hash ma mb ma' mb' da' db',
  sends e msg bits 0 mx da tf hash ma /\ sends e msg bits 0 mx db tf hash mb /\ e_conf e = [] /\
  (forall sg, In sg (g_sigs msg) -> value ma sg = value mb sg) /\
  pack e msg ma = Ok (ma', Some (VI U32 (g_id msg))) /\ frame e ma' da' /\
  pack e msg mb = Ok (mb', Some (VI U32 (g_id msg))) /\ frame e mb' db' /\
  firstn (Z.to_nat (g_dlc msg)) da' <> firstn (Z.to_nat (g_dlc msg)) db'.
Proof.
  exists single, only, false, 0, [0; 0], [255; 255], no_raw, no_hash, (only_tx 0), (only_tx 255). do 4 eexists.
  split; [apply only_sends; cbn; auto|]. split; [apply only_sends; cbn; auto|]. split; [reflexivity|].
  split; [intros sg I; cbn in I; destruct I as [<-|[]]; reflexivity|].
  split; [vm_compute; reflexivity|]. split; [vm_compute; reflexivity|]. split; [vm_compute; reflexivity|]. split; [vm_compute; reflexivity|].
  vm_compute. discriminate.
Qed.
Print Assumptions C07_old_buffer_refuted.

(** ** C08.  [receives] asks for a payload of at least DLC bytes, and in the C semantics an access outside
    of an array has no result: a run that ends normally on a payload of exactly DLC bytes reads no
    byte behind it. *)
Theorem C08_unpack_reads_frame : forall e msg bits da db dl tick hash hook pf ma mb,
  receives e msg bits da dl tick hash hook pf ma -> receives e msg bits db dl tick hash hook pf mb -> signed_fit msg ->
  firstn (Z.to_nat (g_dlc msg)) da = firstn (Z.to_nat (g_dlc msg)) db ->
  exists ma' mb', unpack e msg ma = Ok (ma', Some (VI U32 (g_id msg))) /\ unpack e msg mb = Ok (mb', Some (VI U32 (g_id msg))) /\
    m_arr ma' = m_arr ma /\
    forall sg, In sg (g_sigs msg) -> exists z, field_is ma' sg z /\ field_is mb' sg z.
Proof. exact unpack_prefix. Qed.
Print Assumptions C08_unpack_reads_frame.

Theorem C08_pack_writes_frame : forall e msg bits ini mx d tf hash m, sends e msg bits ini mx d tf hash m ->
  exists m' d', pack e msg m = Ok (m', Some (VI U32 (g_id msg))) /\ frame e m' d' /\ List.length d' = List.length d /\
    skipn (Z.to_nat (g_dlc msg)) d' = skipn (Z.to_nat (g_dlc msg)) d.
Proof. exact pack_behind. Qed.
Print Assumptions C08_pack_writes_frame.
(** [C03_case] has a ninth byte, 247, which stays *)

(** ** C09.  Full claim: signal bits carry the signals whatever the initial byte value is.  The exact
    result is a disjunction, so the claim holds for signal bits that are 0 in the initial value. *)
Theorem C09_initial_value_partial : forall e msg bits ini mx d tf hash m,
  sends e msg bits ini mx d tf hash m -> g_dlc msg <= mx -> no_overlap msg ->
  exists m' d', pack e msg m = Ok (m', Some (VI U32 (g_id msg))) /\ frame e m' d' /\
    (forall p, 0 <= p < 8 * g_dlc msg -> (forall sg, In sg (g_sigs msg) -> ~ sig_covers sg p) ->
       payload_bit d' p = Z.testbit ini (p mod 8)) /\
    (forall sg k, In sg (g_sigs msg) -> 0 <= k < s_len sg ->
       let p := sig_pos (s_order sg) (s_start sg) (s_len sg) k in
       payload_bit d' p = Z.testbit (value m' sg) k || Z.testbit ini (p mod 8)).
Proof. exact initial_visible. Qed.
Print Assumptions C09_initial_value_partial.

Lemma filled_sends : sends filled engine false 255 8 [255; 254; 253; 252; 251; 250; 249; 248; 247] no_raw no_hash engine_tx.
Proof.
  apply simple_sends; [apply filled_program|vm_compute; auto| |vm_compute; reflexivity|vm_compute; reflexivity].
  eexists. split; [vm_compute; reflexivity|]. reflexivity.
Qed.
Theorem C09_initial_value_refuted : exists e msg bits ini mx d tf hash m m' d' sg k,
  sends e msg bits ini mx d tf hash m /\ g_dlc msg <= mx /\ no_overlap msg /\
  pack e msg m = Ok (m', Some (VI U32 (g_id msg))) /\ frame e m' d' /\ In sg (g_sigs msg) /\ 0 <= k < s_len sg /\
  payload_bit d' (sig_pos (s_order sg) (s_start sg) (s_len sg) k) <> Z.testbit (value m' sg) k.
Proof.
  exists filled, engine, false, 255, 8, [255; 254; 253; 252; 251; 250; 249; 248; 247], no_raw, no_hash, engine_tx. do 2 eexists.
  exists (sig_at engine 0), 0.
  split; [apply filled_sends|]. split; [vm_compute; discriminate|]. split; [apply engine_no_overlap|].
  split; [vm_compute; reflexivity|]. split; [vm_compute; reflexivity|]. split; [vm_compute; auto|]. split; [vm_compute; split; congruence|].
  vm_compute. discriminate.
Qed.
Print Assumptions C09_initial_value_refuted.

(** ** C12.  Two programs around the same message, one with and one without the frame struct. *)
Theorem C12_flavours_agree : forall e1 e2 msg bits1 bits2 ini mx d1 d2 tf hash m1 m2,
  sends e1 msg bits1 ini mx d1 tf hash m1 -> sends e2 msg bits2 ini mx d2 tf hash m2 -> g_dlc msg <= mx ->
  same_options e1 e2 msg -> hash_of_first (Z.to_nat (g_dlc msg)) hash ->
  (forall sg, In sg (g_sigs msg) -> value m1 sg = value m2 sg) ->
  exists m1' d1' m2' d2',
    pack e1 msg m1 = Ok (m1', Some (VI U32 (g_id msg))) /\ frame e1 m1' d1' /\
    pack e2 msg m2 = Ok (m2', Some (VI U32 (g_id msg))) /\ frame e2 m2' d2' /\
    firstn (Z.to_nat (g_dlc msg)) d1' = firstn (Z.to_nat (g_dlc msg)) d2' /\
    (forall p t z, In (p, t, z) (reports msg (struct_on e1)) -> m_scal m1' p = Some (LInt t, VI t z)) /\
    (forall p t z, In (p, t, z) (reports msg (struct_on e2)) -> m_scal m2' p = Some (LInt t, VI t z)).
Proof. exact pack_flavours. Qed.
Print Assumptions C12_flavours_agree.

(** the sample with DRV_USE_CANSTRUCT *)
Definition framed : env :=
  the_env 0 "drv" sample_db sample_h sample_c [("DRV_USE_CANSTRUCT"%string, {| m_params := None; m_body := [] |})] no_user no_calls.
Definition engine_ftx : mem :=
  mk_mem ((("cframe->MsgId", (LInt U32, VI U32 0)) :: ("cframe->DLC", (LInt U8, VI U8 0)) :: ("cframe->IDE", (LInt U8, VI U8 7)) ::
          struct_of false engine engine_vals))%string "cframe->Data" [9; 9; 9; 9; 9; 9; 9; 9].
Example C12_case : program framed /\ struct_on framed = true /\ struct_on sample = false /\ same_options sample framed engine /\
  sends framed engine false 0 8 [9; 9; 9; 9; 9; 9; 9; 9] no_raw no_hash engine_ftx /\
  exists m', pack framed engine engine_ftx = Ok (m', Some (VI U32 291)) /\ frame framed m' [160; 205; 239; 1; 5; 100; 0; 10].
Proof.
  assert (P : program framed) by (apply programb_ok; vm_compute; reflexivity).
  split; [exact P|]. split; [vm_compute; reflexivity|]. split; [vm_compute; reflexivity|]. split.
  { split; [vm_compute; reflexivity|]. split; [vm_compute; reflexivity|]. intros sg I. cbn in I.
    repeat (destruct I as [<-|I]; [vm_compute; reflexivity|]). contradiction. }
  split.
  - constructor.
    + exact P.
    + split; [vm_compute; auto|reflexivity].
    + intros cs E. vm_compute in E. discriminate.
    + apply payloadb_ok. reflexivity.
    + change (struct_on framed) with true. cbn [reports]. intros p t z [X|[X|[X|[]]]]; injection X; intros; subst p t z; eexists; reflexivity.
    + split; [vm_compute; reflexivity|]. split; [discriminate|reflexivity].
    + split; [vm_compute; reflexivity|]. split; [discriminate|reflexivity].
    + apply has_structb_ok. vm_compute. reflexivity.
    + intros rs E. vm_compute in E. discriminate.
    + intros sg I E. vm_compute in I. repeat (destruct I as [<-|I]; [vm_compute in E; discriminate|]). contradiction.
    + intros E. exfalso. apply E. vm_compute. reflexivity.
  - eexists. split; vm_compute; reflexivity.
Qed.

(** ** C13.  Identification of the frame; the parsing of the message line is C27. *)
Theorem C13_identity : forall e msg bits ini mx d tf hash m, sends e msg bits ini mx d tf hash m ->
  exists m', pack e msg m = Ok (m', Some (VI U32 (g_id msg))) /\
    if struct_on e
    then int_at m' "cframe->MsgId" = Some (g_id msg) /\ int_at m' "cframe->DLC" = Some (g_dlc msg) /\ int_at m' "cframe->IDE" = Some (g_ext msg)
    else int_at m' "*_len" = Some (g_dlc msg) /\ int_at m' "*_ide" = Some (g_ext msg).
Proof. exact identity. Qed.
Print Assumptions C13_identity.
(** [C01_unpack_unsigned_partial] and [C02_unpack_signed_partial] state the value Unpack returns; [C12_case] shows MsgId 291 *)
