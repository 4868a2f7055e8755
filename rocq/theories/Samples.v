(** Concrete data bases for the examples and counterexamples beside the theorems. *)

From Coq Require Import ZArith NArith List String Ascii Bool.
From Verif Require Import Base Dbl CSyntax CSem CRun Types Formatter Settings MainGen Scanner App CodecSpec MsgSpec DriverSpec HeaderSpec CodecEnv Concrete.
Import ListNotations.
Open Scope string_scope.

(** two messages with Intel and Motorola, signed, scaled signals, a rolling counter and a checksum; the
    third message is there because the maximal DLC does not count the last one *)
Definition sample_text : string :=
"VERSION ""2.7""
BO_ 291 Engine: 8 ECU
 SG_ Speed : 4|12@1+ (1,0) [0|0] ""rpm"" GW
 SG_ Temp : 16|9@1- (1,0) [0|0] ""C"" GW
 SG_ Gear : 35|10@0+ (1,0) [0|0] """" GW
 SG_ Load : 56|8@1+ (2,-100) [0|0] """" GW
BO_ 2148532224 Status: 4 ECU
 SG_ RC : 0|4@1+ (1,0) [0|0] """" GW
 SG_ Flag : 4|3@1- (1,0) [0|0] """" GW
 SG_ Val : 8|16@1+ (1,0) [0|0] """" GW
 SG_ CS : 24|8@1+ (1,0) [0|0] """" GW
BO_ 5 Last: 1 GW
 SG_ Dummy : 0|1@1+ (1,0) [0|0] """" ECU
CM_ SG_ 1048576 RC ""<RollingCounter>"";
CM_ SG_ 1048576 CS ""<Checksum:XOR8:3>"";
".
Definition sample_db : dbclist := Eval vm_compute in db_of sample_text.
Definition sample_files : list (string * string) := Eval vm_compute in files_of "drv" sample_db.
Definition sample_h : string := Eval vm_compute in snd (nth 0 sample_files ("", "")).
Definition sample_c : string := Eval vm_compute in snd (nth 1 sample_files ("", "")).

Definition no_user : string -> option (list arg -> res cval) := fun _ => None.
Definition no_calls : string -> option (list expr -> mem -> res (mem * cval)) := fun _ => None.

(** a program without any option *)
Definition sample : env := the_env 0 "drv" sample_db sample_h sample_c [] no_user no_calls.

Lemma sample_program : program sample.
Proof. apply programb_ok. vm_compute. reflexivity. Qed.

Definition engine : message := Eval vm_compute in nth 0 (d_msgs sample_db) (hd (Build_message "" 0 0 0 0 [] [] [] false false None None "" 0 "") []).
Definition status : message := Eval vm_compute in nth 1 (d_msgs sample_db) engine.

Definition dlc_obj (z : Z) : string * (lty * cval) := ("dlc_", (LInt U8, VI U8 z)).

(** settings of calls in programs without options *)
Definition no_hash : list Z -> Z := fun _ => 0%Z.
Definition no_hook : mem -> mem := fun m => m.
Definition no_phys : signal -> Z -> cval := fun _ _ => VI I32 0.
Definition no_raw : signal -> Z := fun _ => 0%Z.

Definition rx_mem (msg : message) (bits : bool) (d : list Z) (dl : Z) (vals : list (string * Z)) : mem :=
  mk_mem (dlc_obj dl :: struct_of bits msg vals) "_d" d.
Definition tx_mem (msg : message) (bits : bool) (d : list Z) (vals : list (string * Z)) : mem :=
  mk_mem (("*_len", (LInt U8, VI U8 0)) :: ("*_ide", (LInt U8, VI U8 0)) :: struct_of bits msg vals)%list "_d" d.


Lemma simple_receives : forall e msg bits d dl vals, program e -> In msg (d_msgs (e_db e)) ->
  g_notempty msg && payloadb msg d && (0 <=? dl)%Z && (dl <? 256)%Z && has_structb bits msg (rx_mem msg bits d dl vals)
    && negb (floats_on e) && negb (monitors_on e) = true ->
  receives e msg bits d dl 0 no_hash no_hook no_phys (rx_mem msg bits d dl vals).
Proof.
  intros e msg bits d dl vals P I H. splitb H. constructor; auto.
  - now apply payloadb_ok.
  - split; [reflexivity|]. split; [now apply Z.leb_le|now apply Z.ltb_lt].
  - now apply has_structb_ok.
  - intros X. rewrite X in H1. discriminate.
  - intros X. rewrite X in H0. discriminate.
Qed.

(** no option of Pack that changes fields *)
Definition no_options (e : env) (msg : message) : bool :=
  negb (struct_on e) && match counter_on (e_macros e) (e_g e) msg with None => true | _ => false end &&
  match checksum_on (e_macros e) (e_g e) msg with None => true | _ => false end &&
  forallb (fun sg => negb (converted (e_macros e) (e_g e) msg sg)) (g_sigs msg).
Lemma simple_sends : forall e msg bits ini mx d vals, program e -> In msg (d_msgs (e_db e)) ->
  initial_is e ini -> maxdlc_is e mx ->
  g_notempty msg && payloadb msg d && (0 <=? ini)%Z && (ini <? 256)%Z && (0 <=? mx)%Z && (mx <? 256)%Z &&
    has_structb bits msg (tx_mem msg bits d vals) && no_options e msg = true ->
  sends e msg bits ini mx d no_raw no_hash (tx_mem msg bits d vals).
Proof.
  intros e msg bits ini mx d vals P I N MX H. splitb H. unfold no_options in H0. splitb H0.
  apply negb_true_iff in H0. rewrite forallb_forall in H7.
  constructor; auto.
  - intros cs E. rewrite E in H8. discriminate.
  - rewrite H0. now apply payloadb_ok.
  - rewrite H0. cbn [reports]. intros p t z [X|[X|[]]]; injection X; intros; subst p t z; eexists; reflexivity.
  - split; [exact N|]. split; [now apply Z.leb_le|now apply Z.ltb_lt].
  - split; [exact MX|]. split; [now apply Z.leb_le|now apply Z.ltb_lt].
  - now apply has_structb_ok.
  - intros rs E. rewrite E in H9. discriminate.
  - intros sg J E. specialize (H7 sg J). rewrite E in H7. discriminate.
  - intros E. destruct (checksum_on _ _ _); [discriminate|congruence].
Qed.
Lemma simple_plain : forall e msg sg, no_options e msg = true -> In sg (g_sigs msg) -> plain e msg sg.
Proof.
  intros e msg sg H I. unfold no_options in H. splitb H. rewrite forallb_forall in H0. specialize (H0 sg I).
  unfold plain. destruct (counter_on _ _ _); [discriminate|]. destruct (checksum_on _ _ _); [discriminate|].
  split; [discriminate|]. split; [discriminate|]. now apply negb_true_iff.
Qed.

(** data bases that show where a general claim fails *)
Definition wide_text : string :=
"BO_ 1 Wide: 8 ECU
 SG_ W : 4|40@1+ (1,0) [0|0] """" GW
BO_ 2 Neg: 8 ECU
 SG_ N : 0|40@1- (1,0) [0|0] """" GW
BO_ 3 Last: 1 ECU
 SG_ Dummy : 0|1@1+ (1,0) [0|0] """" GW
".
Definition wide_db : dbclist := Eval vm_compute in db_of wide_text.
Definition wide_files : list (string * string) := Eval vm_compute in files_of "drv" wide_db.
Definition wide_h : string := Eval vm_compute in snd (nth 0 wide_files ("", "")).
Definition wide_c : string := Eval vm_compute in snd (nth 1 wide_files ("", "")).
Definition wide : env := the_env 0 "drv" wide_db wide_h wide_c [] no_user no_calls.
Lemma wide_program : program wide.
Proof. apply programb_ok. vm_compute. reflexivity. Qed.
Definition wide_msg : message := Eval vm_compute in nth 0 (d_msgs wide_db) engine.
Definition neg_msg : message := Eval vm_compute in nth 1 (d_msgs wide_db) engine.

(** a data base with a single message *)
Definition single_text : string :=
"BO_ 7 Only: 2 ECU
 SG_ Low : 0|4@1+ (1,0) [0|0] """" GW
".
Definition single_db : dbclist := Eval vm_compute in db_of single_text.
Definition single_files : list (string * string) := Eval vm_compute in files_of "drv" single_db.
Definition single_h : string := Eval vm_compute in snd (nth 0 single_files ("", "")).
Definition single_c : string := Eval vm_compute in snd (nth 1 single_files ("", "")).
Definition single : env := the_env 0 "drv" single_db single_h single_c [] no_user no_calls.
Lemma single_program : program single.
Proof. apply programb_ok. vm_compute. reflexivity. Qed.
Definition only : message := Eval vm_compute in nth 0 (d_msgs single_db) engine.

(** the sample with the initial byte value set by the configuration *)
Definition filled : env :=
  the_env 0 "drv" sample_db sample_h sample_c [("DRV_INITIAL_BYTE_VALUE", {| m_params := None; m_body := [TInt U32 255] |})] no_user no_calls.
Lemma filled_program : program filled.
Proof. apply programb_ok. vm_compute. reflexivity. Qed.
