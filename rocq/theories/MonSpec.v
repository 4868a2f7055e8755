(** Histories of sent and received frames of one message. *)

From Coq Require Import ZArith NArith List String Ascii Bool.
From Verif Require Import Base Dbl CSyntax CSem CRun Types Formatter Settings MainGen App CodecSpec MsgSpec DriverSpec HeaderSpec CodecEnv.
Import ListNotations.
Open Scope Z_scope.

(** ** Receiving *)

(** one call of Unpack: the program with the functions the application supplies at that time, the
    received bytes and length, the tick, the hash function, the effect of the FMon function, the
    conversions to physical values *)
Record rx := {
  r_env : env; r_data : list Z; r_len : Z; r_tick : Z;
  r_hash : list Z -> Z; r_hook : mem -> mem; r_phys : signal -> Z -> cval
}.

(** between two calls the application leaves the monitor and the expected counter value alone *)
Definition monitor_kept (msg : message) (m m0 : mem) : Prop :=
  (forall q, is_monitor q -> m_scal m0 q = m_scal m q) /\
  (forall sg, roll_sig msg = Some sg -> m_scal m0 (expected sg) = m_scal m (expected sg)).

(** calls of the Unpack function of [msg], one after another, with the same struct *)
Inductive history (msg : message) (bits : bool) : mem -> list rx -> mem -> Prop :=
| H_nil : forall m, history msg bits m [] m
| H_cons : forall m m0 m1 m2 r l v,
    monitor_kept msg m m0 ->
    receives (r_env r) msg bits (r_data r) (r_len r) (r_tick r) (r_hash r) (r_hook r) (r_phys r) m0 ->
    monitors_on (r_env r) = true ->
    unpack (r_env r) msg m0 = Ok (m1, v) ->
    history msg bits m1 l m2 ->
    history msg bits m (r :: l) m2.

(** the FMon functions leave a member of the monitor alone *)
Definition hooks_keep (l : list rx) (f : string) : Prop :=
  forall r, In r l -> forall m, m_scal (r_hook r m) (mon_path f) = m_scal m (mon_path f).

(** the rolling counter, the checksum in use during a history *)
Definition counting (msg : message) (l : list rx) (o : option signal) : Prop :=
  forall r, In r l -> counter_on (e_macros (r_env r)) (e_g (r_env r)) msg = o.
Definition summing (msg : message) (l : list rx) (o : option signal) : Prop :=
  forall r, In r l -> checksum_on (e_macros (r_env r)) (e_g (r_env r)) msg = o.

(** ** Sending *)

(** one call of Pack: the program, the maximal length, the buffer before, the raw values computed from
    physical values, the hash function; and the frame it produces *)
Record tx := {
  t_env : env; t_max : Z; t_buffer : list Z; t_raw : signal -> Z; t_hash : list Z -> Z; t_frame : list Z
}.

(** calls of the Pack function of [msg], one after another, with automatic rolling counter [rs]; in
    between the application may change every member but the counter *)
Inductive sending (msg : message) (bits : bool) (rs : signal) : mem -> list tx -> mem -> Prop :=
| S_nil : forall m, sending msg bits rs m [] m
| S_cons : forall m m0 m1 m2 t l v,
    m_scal m0 (member (s_name rs)) = m_scal m (member (s_name rs)) ->
    sends (t_env t) msg bits 0 (t_max t) (t_buffer t) (t_raw t) (t_hash t) m0 ->
    g_dlc msg <= t_max t ->
    counter_on (e_macros (t_env t)) (e_g (t_env t)) msg = Some rs ->
    checksum_on (e_macros (t_env t)) (e_g (t_env t)) msg <> Some rs ->
    converted (e_macros (t_env t)) (e_g (t_env t)) msg rs = false ->
    pack (t_env t) msg m0 = Ok (m1, v) ->
    frame (t_env t) m1 (t_frame t) ->
    sending msg bits rs m1 l m2 ->
    sending msg bits rs m (t :: l) m2.

(** the receiver gets the bytes of the frame *)
Definition carries_frame (msg : message) (r : rx) (t : tx) : Prop :=
  firstn (Z.to_nat (g_dlc msg)) (r_data r) = firstn (Z.to_nat (g_dlc msg)) (t_frame t).

(** the hash function does not look at the checksum signal, nor behind the frame *)
Definition ignores (msg : message) (cs : signal) (hash : list Z -> Z) : Prop :=
  forall x y, (forall z, In z x -> is_byte z) -> (forall z, In z y -> is_byte z) ->
    g_dlc msg <= Z.of_nat (List.length x) -> g_dlc msg <= Z.of_nat (List.length y) ->
    (forall p, 0 <= p < 8 * g_dlc msg -> ~ sig_covers cs p -> payload_bit x p = payload_bit y p) ->
    hash x = hash y.
