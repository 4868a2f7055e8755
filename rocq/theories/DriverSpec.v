(** What the theorems about emitted functions assume about the data base, the command line and the
    program the emitted files are compiled into. *)

From Coq Require Import ZArith NArith List String Ascii Bool Permutation.
From Verif Require Import Base Dbl CSyntax CSem CRun Types Formatter Settings MainGen App LexLemmas PPProof CodecSpec MsgSpec.
Import ListNotations.
Open Scope Z_scope.

(** ** Messages *)

Definition sig_covers (sg : signal) (p : Z) : Prop := covers (s_order sg) (s_start sg) (s_len sg) p.

(** no payload bit belongs to two signals *)
Definition no_overlap (m : message) : Prop :=
  forall a b p, In a (g_sigs m) -> In b (g_sigs m) -> sig_covers a p -> sig_covers b p ->
    s_name a = s_name b.

(** some bit of the signal is in byte [i] *)
Definition in_byte (sg : signal) (i : Z) : bool :=
  existsb (fun k => sig_pos (s_order sg) (s_start sg) (s_len sg) (Z.of_nat k) / 8 =? i)
          (seq 0 (Z.to_nat (s_len sg))).

(** the names of the signals in one byte are short enough for one line of code *)
Fixpoint names_size (l : list signal) : Z :=
  match l with [] => 0 | sg :: r => Z.of_nat (String.length (s_name sg)) + 63 + names_size r end.
Definition short_lines (m : message) : Prop :=
  forall i, names_size (filter (fun sg => in_byte sg i) (g_sigs m)) <= 9600.

(** the checksum signal is in the first 8 bytes *)
Definition csm_first8 (m : message) : Prop :=
  forall sg, csm_sig m = Some sg -> in_frame (s_order sg) (s_start sg) (s_len sg) 8.

(** ** One run of the generator *)

Definition sorts (srt : sorter) : Prop := forall A (key : A -> Z) l, Permutation (srt A key l) l.

(** [h] and [c] are the texts of the driver's header and source, written for the data base [d] *)
Record driver (drv : string) (g : gendesc) (d : dbclist) (h c : string) : Prop := {
  dr_run : exists srt out date dbc hi low nc ni nf rest,
    let s := configure drv out (common_info date) (driver_info dbc) hi low nc ni nf in
    sorts srt /\ match date with Some t => no_nl t = true | None => True end /\ no_nl dbc = true /\
    0 <= hi < 2 ^ 32 /\ 0 <= low < 2 ^ 32 /\ g = st_g s /\
    generate_main srt d s = Ok ((f_coreh_path (st_f s), h) :: (f_corec_path (st_f s), c) :: rest);
  dr_drv : is_ident drv = true /\ (String.length drv <= 900)%nat;
  dr_msgs : forall m, In m (d_msgs d) -> msg_ok m /\ csm_first8 m /\ short_lines m;
  dr_names : NoDup (map g_name (d_msgs d))
}.

Definition unpack_name (drv : string) (m : message) : string := ("Unpack_" ++ g_name m ++ "_" ++ drv)%string.
Definition pack_name (drv : string) (m : message) : string := ("Pack_" ++ g_name m ++ "_" ++ drv)%string.

(** ** The program around the driver *)

(** functions of the unit see each other, [user] are further functions, [calls] the routines that get
    pointers *)
Definition leaf_ctx (M : list (string * macro)) : ctx :=
  {| c_macros := M; c_types := std_types; c_funs := fun _ => None; c_calls := fun _ => None |}.
Definition unit_ctx (n : nat) (u : cunit) (user : string -> option (list arg -> res cval))
  (calls : string -> option (list expr -> mem -> res (mem * cval))) : ctx :=
  {| c_macros := u_macros u; c_types := std_types;
     c_funs := fun f => match find_fun f (u_funs u) with
                        | Some fd => Some (call_pure n (leaf_ctx (u_macros u)) fd)
                        | None => user f
                        end;
     c_calls := calls |}.

(** the local names of the emitted functions are not macros *)
Definition locals_free (M : list (string * macro)) : Prop :=
  forall x, In x ["m"; "val"; "bits"; "i"; "dlc_"; "__ext_sig__"]%string -> lookup x M = None.

(** a buffer of bytes, large enough for the message *)
Definition payload (m : mem) (p : string) (msg : message) (d : list Z) : Prop :=
  only_array m p d /\ (forall x, In x d -> is_byte x) /\ g_dlc msg <= Z.of_nat (List.length d).

(** the member of a signal holds the number [z] *)
Definition field_is (m : mem) (sg : signal) (z : Z) : Prop := int_at m (member (s_name sg)) = Some z.

(** ** Optional parts of the code, chosen by macros of the configuration *)

Definition counter_on (M : list (string * macro)) (g : gendesc) (msg : message) : option signal :=
  if defined (n_useroll g) M then roll_sig msg else None.
Definition checksum_on (M : list (string * macro)) (g : gendesc) (msg : message) : option signal :=
  if defined (n_usecsm g) M then csm_sig msg else None.

Definition is_monitor (q : string) : Prop := exists f, q = mon_path f.
Definition expected (sg : signal) : string := member (s_name sg ++ "_expt").

(** what an application with monitors supplies; [hook] is the effect of its FMon function, which gets
    a pointer to the monitor only *)
Record monitors (n : nat) (c : ctx) (g : gendesc) (msg : message) (m : mem) (tick : Z)
    (hash : list Z -> Z) (hook : mem -> mem) : Prop := {
  mn_mon : has_monitor m;
  mn_tick : tick_ok n c tick;
  mn_hash : checksum_on (c_macros c) g msg <> None ->
            m_scal m (g_csmmethod msg) = None /\ hash_ok n c msg (EId "_d") "_d" hash;
  mn_hook : c_calls c ("FMon_" ++ g_name msg ++ "_" ++ n_drv g)%string = Some (fun _ m => Ok (hook m, VI I32 0));
  mn_only : forall m, m_arr (hook m) = m_arr m /\ forall q, ~ is_monitor q -> m_scal (hook m) q = m_scal m q
}.

(** the conversion macro of a scaled signal computes [pf] *)
Definition from_raw (n : nat) (c : ctx) (g : gendesc) (bits : bool) (pf : signal -> Z -> cval) (sg : signal) : Prop :=
  let call := ECall (n_DRV g ++ "_" ++ s_name sg ++ "_fromS")%string [EFld true (EId "_m") (s_name sg)] in
  forall m z, carries (s_signed sg) (s_len sg) z -> has_type m (member (s_name sg)) (field_ty bits sg) ->
    int_at m (member (s_name sg)) = Some z -> m_arr m (member (s_name sg)) = None ->
    exists w, eval n c m [] (EUn (UCast (if s_double sg then "sigfloat_t" else print_type (s_typephys sg))) call)
              = Ok w /\ to_obj (phys_ty sg) w = Ok (pf sg z).

(** ** Results *)

(** layouts whose bits survive the emitted 32-bit shifts *)
Definition exact_layout (sg : signal) : Prop :=
  s_len sg <= 32 \/ sig_pos (s_order sg) (s_start sg) (s_len sg) 0 mod 8 = 0.

(** bits of the value that the emitted 32-bit shifts drop: those of the byte that bit 31 is in, above
    bit 31 *)
Definition dropped (sg : signal) (k : Z) : bool :=
  (32 <=? k) && (k <? 32 + (8 - sig_pos (s_order sg) (s_start sg) (s_len sg) 0 mod 8) mod 8).

(** signed signals are within the width of the default helper type *)
Definition signed_fit (msg : message) : Prop :=
  forall sg, In sg (g_sigs msg) -> s_signed sg = true -> s_len sg <= 32.

Definition sig_value (sg : signal) (d : list Z) : Z :=
  decoded (s_signed sg) (s_order sg) (s_start sg) (s_len sg) d.

(** effect of the signal part of Unpack *)
Record unpacked_to (bits float rolls : bool) (msg : message) (d : list Z) (pf : signal -> Z -> cval) (m m1 : mem)
  : Prop := {
  ur_fields : forall sg, In sg (g_sigs msg) -> exact_layout sg -> field_is m1 sg (sig_value sg d);
  ur_range : forall sg, In sg (g_sigs msg) ->
               exists z, field_is m1 sg z /\ carries (s_signed sg) (s_len sg) z /\
                 forall k, 0 <= k < s_len sg ->
                   Z.testbit z k = negb (dropped sg k) && payload_bit d (sig_pos (s_order sg) (s_start sg) (s_len sg) k);
  ur_float : forall sg, In sg (g_sigs msg) -> s_simple sg = false -> exact_layout sg ->
               if float then m_scal m1 (member (s_namefloat sg)) = Some (phys_ty sg, pf sg (sig_value sg d))
               else m_scal m1 (member (s_namefloat sg)) = m_scal m (member (s_namefloat sg));
  ur_struct : has_struct float rolls bits msg m1;
  ur_arr : m_arr m1 = m_arr m
}.

(** effect of the monitor part of Unpack *)
Record monitored (M : list (string * macro)) (g : gendesc) (msg : message) (bits : bool) (d : list Z)
    (dl tick : Z) (hash : list Z -> Z) (m m1 : mem) : Prop := {
  md_dlc : int_at m1 (mon_path "dlc_error") = Some (flag (dl <? g_dlc msg));
  md_cycle : int_at m1 (mon_path "last_cycle") = Some tick;
  md_cnt : forall k, int_at m (mon_path "frame_cnt") = Some k ->
             int_at m1 (mon_path "frame_cnt") = Some ((k + 1) mod 2 ^ 32);
  md_roll : match counter_on M g msg with
            | None => int_at m1 (mon_path "roll_error") = int_at m (mon_path "roll_error")
            | Some sg => exact_layout sg -> forall e, int_at m (expected sg) = Some e ->
                int_at m1 (mon_path "roll_error") = Some (flag (negb (sig_value sg d =? e))) /\
                m_scal m1 (expected sg)
                = Some (field_ty bits sg, obj (field_ty bits sg) ((sig_value sg d + 1) mod 2 ^ s_len sg))
            end;
  md_csm : match checksum_on M g msg with
           | None => int_at m1 (mon_path "csm_error") = int_at m (mon_path "csm_error")
           | Some sg => exact_layout sg ->
               int_at m1 (mon_path "csm_error") = Some (flag (negb (hash d mod 256 =? sig_value sg d)))
           end;
  md_mon : has_monitor m1
}.

(** everything else is as before: members change only for signals and, with monitors, the monitor and
    the expected counter value *)
Definition keeps_rest (M : list (string * macro)) (g : gendesc) (msg : message) (m m1 : mem) : Prop :=
  forall q, (forall sg, In sg (g_sigs msg) -> q <> member (s_name sg) /\
                        (s_simple sg = false -> q <> member (s_namefloat sg))) ->
    (defined (n_usemon g) M = true ->
       ~ is_monitor q /\ forall sg, counter_on M g msg = Some sg -> q <> expected sg) ->
    m_scal m1 q = m_scal m q.

(** ** Pack *)

(** the buffer Pack writes to: of the frame struct, or given as a parameter *)
Definition buffer (st : bool) : string := if st then "cframe->Data" else "_d".
Definition buffer_expr (st : bool) : expr := if st then EFld true (EId "cframe") "Data" else EId "_d".

(** where Pack reports identifier, length and frame format *)
Definition reports (msg : message) (st : bool) : list (string * cty * Z) :=
  if st then [("cframe->MsgId", U32, g_id msg); ("cframe->DLC", U8, g_dlc msg); ("cframe->IDE", U8, g_ext msg)]%string
  else [("*_len", U8, g_dlc msg); ("*_ide", U8, g_ext msg)]%string.

(** the number in the member of a signal *)
Definition value (m : mem) (sg : signal) : Z :=
  match int_at m (member (s_name sg)) with Some z => z | None => 0 end.

(** payload bit [p] is set by a signal of value [W] *)
Definition set_by (msg : message) (W : signal -> Z) (p : Z) : Prop :=
  exists sg k, In sg (g_sigs msg) /\ 0 <= k < s_len sg /\
    sig_pos (s_order sg) (s_start sg) (s_len sg) k = p /\ Z.testbit (W sg) k = true.

(** the payload made from [base] by setting the bits of all signals *)
Record composed (msg : message) (base : list Z) (W : signal -> Z) (d : list Z) : Prop := {
  co_len : List.length d = List.length base;
  co_bytes : forall x, In x d -> is_byte x;
  co_bits : forall p, 0 <= p < 8 * Z.of_nat (List.length d) ->
              (payload_bit d p = true <-> payload_bit base p = true \/ set_by msg W p)
}.

(** the buffer after the loop that writes [ini] to the first [vd] bytes *)
Definition initialised (ini vd : Z) (d : list Z) : list Z :=
  (repeat ini (Z.to_nat vd) ++ skipn (Z.to_nat vd) d)%list.

(** the macro that turns the physical value of [m0] into a raw value leaves [tf sg] in the member *)
Definition to_raw (n : nat) (c : ctx) (g : gendesc) (bits : bool) (m0 : mem) (tf : signal -> Z) (sg : signal) : Prop :=
  let call := ECall (n_DRV g ++ "_" ++ s_name sg ++ "_toS")%string [EFld true (EId "_m") (s_namefloat sg)] in
  forall m, m_scal m (member (s_namefloat sg)) = m_scal m0 (member (s_namefloat sg)) ->
    m_arr m (member (s_namefloat sg)) = None ->
    exists w t, eval n c m [] (EUn (UCast (print_type (s_typero sg))) call) = Ok w /\
      to_obj (field_ty bits sg) w = Ok (VI t (tf sg)).

(** scaled signals are converted by Pack *)
Definition converted (M : list (string * macro)) (g : gendesc) (msg : message) (sg : signal) : bool :=
  g_hasphys msg && defined (n_usesigfloat g) M && negb (s_simple sg).

(** the checksum signal: inside one byte and not computed from a physical value *)
Definition csm_plain (M : list (string * macro)) (g : gendesc) (msg : message) : Prop :=
  forall cs, checksum_on M g msg = Some cs ->
    converted M g msg cs = false /\
    forall k, 0 <= k < s_len cs ->
      sig_pos (s_order cs) (s_start cs) (s_len cs) k / 8 = sig_pos (s_order cs) (s_start cs) (s_len cs) 0 / 8.

(** what the caller of Pack supplies *)
Record pack_env (n : nat) (c : ctx) (g : gendesc) (msg : message) (st bits : bool) (ini vd : Z) (d : list Z)
    (tf : signal -> Z) (hash : list Z -> Z) (m : mem) : Prop := {
  pe_buffer : payload m (buffer st) msg d;
  pe_reports : forall p t z, In (p, t, z) (reports msg st) -> exists v, m_scal m p = Some (LInt t, v);
  pe_ini : const_macro (c_macros c) (n_DRV g ++ "_INITIAL_BYTE_VALUE") ini /\ 0 <= ini < 256;
  pe_bound : 0 <= vd < 256 /\ vd <= Z.of_nat (List.length d) /\
    forall m, m_arr m (g_name msg ++ "_DLC")%string = None ->
      eval n c m [] (ECall (n_DRV g ++ "_VALIDATE_DLC") [EId (g_name msg ++ "_DLC")]) = Ok (VI U32 vd);
  pe_struct : has_struct (defined (n_usesigfloat g) (c_macros c)) (defined (n_useroll g) (c_macros c)) bits msg m;
  pe_counter : forall rs, counter_on (c_macros c) g msg = Some rs -> carries (s_signed rs) (s_len rs) (value m rs);
  pe_scaled : forall sg, In sg (g_sigs msg) -> converted (c_macros c) g msg sg = true -> to_raw n c g bits m tf sg;
  pe_hash : checksum_on (c_macros c) g msg <> None ->
    hash_ok n c msg (buffer_expr st) (buffer st) hash /\ m_scal m (g_csmmethod msg) = None /\
    g_csmmethod msg <> "i"%string
}.

(** the effect of Pack *)
Record packed (M : list (string * macro)) (g : gendesc) (msg : message) (st bits : bool) (ini vd : Z) (d : list Z)
    (tf : signal -> Z) (hash : list Z -> Z) (m m' : mem) (d' : list Z) : Prop := {
  pk_buffer : only_array m' (buffer st) d';
  pk_data : composed msg (initialised ini vd d) (value m') d';
  pk_reports : forall p t z, In (p, t, z) (reports msg st) -> m_scal m' p = Some (LInt t, VI t z);
  pk_plain : forall sg, In sg (g_sigs msg) -> counter_on M g msg <> Some sg -> checksum_on M g msg <> Some sg ->
               converted M g msg sg = false -> value m' sg = value m sg;
  pk_scaled : forall sg, In sg (g_sigs msg) -> checksum_on M g msg <> Some sg ->
               converted M g msg sg = true -> value m' sg = tf sg;
  pk_counter : forall rs, counter_on M g msg = Some rs -> checksum_on M g msg <> Some rs ->
               converted M g msg rs = false ->
               value m' rs mod 2 ^ s_len rs = (value m rs + 1) mod 2 ^ s_len rs /\
               (s_signed rs = false -> value m' rs = (value m rs + 1) mod 2 ^ s_len rs);
  pk_checksum : forall cs, checksum_on M g msg = Some cs ->
               exists d0, composed msg (initialised ini vd d)
                            (fun sg => if String.eqb (s_name sg) (s_name cs) then 0 else value m' sg) d0 /\
                 value m' cs mod 2 ^ s_len cs = hash d0 mod 2 ^ s_len cs /\
                 (s_signed cs = false -> s_len cs = 8 -> value m' cs = hash d0 mod 256);
  pk_struct : has_struct (defined (n_usesigfloat g) M) (defined (n_useroll g) M) bits msg m';
  pk_rest : forall q, q <> "i"%string -> (forall t z, ~ In (q, t, z) (reports msg st)) ->
               (forall sg, In sg (g_sigs msg) -> q <> member (s_name sg)) -> m_scal m' q = m_scal m q
}.
