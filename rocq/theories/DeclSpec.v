(** What the declarations of a DBC file mean for the emitted code: names and types of struct members, places of
    bits, macro names.  Everything is read off the declarations (SigSpec.v), not off the generator. *)

From Coq Require Import ZArith NArith List String Ascii Bool.
From Verif Require Import Base Dbl CSyntax CSem CRun Types Formatter Settings MainGen App Scanner LexLemmas PPProof CodecSpec MsgSpec DriverSpec HeaderSpec ScanSpec StructSpec
  SigSpec NamesSpec CodecEnv.
Import ListNotations.
Open Scope string_scope.

(** ** Struct members *)

(** factor 1 and offset 0, both written as integers: the member has the name of the signal *)
Definition unscaledb (d : sigdecl) : bool :=
  match sd_factor d, sd_offset d with NInt 1, NInt 0 => true | _, _ => false end.
Definition field_name (d : sigdecl) : string := if unscaledb d then sd_name d else sd_name d ++ "_ro".
(** all members that belong to a signal: scaled ones have a second one for the physical value *)
Definition members_of (d : sigdecl) : list string :=
  if unscaledb d then [sd_name d] else [sd_name d ++ "_ro"; sd_name d ++ "_phys"].
(** the smallest type *)
Definition field_type (d : sigdecl) : cty :=
  if (sd_len d <=? 8)%N then (if sd_signed d then I8 else U8)
  else if (sd_len d <=? 16)%N then (if sd_signed d then I16 else U16)
  else if (sd_len d <=? 32)%N then (if sd_signed d then I32 else U32)
  else if sd_signed d then I64 else U64.
(** with bit-fields in use, signals below 8 bits are bit-fields *)
Definition field_object (bits : bool) (d : sigdecl) : lty :=
  if bits && (sd_len d <? 8)%N then LBits (field_type d) (Z.of_N (sd_len d)) else LInt (field_type d).

(** ** Bits *)

Definition decl_pos (d : sigdecl) (k : Z) : Z := sig_pos (sd_order d) (Z.of_N (sd_start d)) (Z.of_N (sd_len d)) k.
(** the payload bits of the signal *)
Definition decl_covers (d : sigdecl) (p : Z) : Prop := exists k, (0 <= k < Z.of_N (sd_len d))%Z /\ decl_pos d k = p.
(** the number a payload holds for the signal *)
Definition decl_value (d : sigdecl) (data : list Z) : Z :=
  decoded (sd_signed d) (sd_order d) (Z.of_N (sd_start d)) (Z.of_N (sd_len d)) data.
(** numbers that the declared bits can represent *)
Definition decl_carries (d : sigdecl) (v : Z) : Prop := carries (sd_signed d) (Z.of_N (sd_len d)) v.
(** up to 32 bits, or the least significant bit at a byte border *)
Definition decl_exact (d : sigdecl) : Prop := (Z.of_N (sd_len d) <= 32 \/ decl_pos d 0 mod 8 = 0)%Z.

(** ** Declarations that fit *)

Definition decl_in_byte (i : Z) (d : sigdecl) : bool :=
  existsb (fun k => decl_pos d (Z.of_nat k) / 8 =? i)%Z (seq 0 (N.to_nat (sd_len d))).
Fixpoint decl_size (l : list sigdecl) : Z :=
  match l with [] => 0 | d :: r => Z.of_nat (String.length (sd_name d)) + 66 + decl_size r end.

Record fits (m : msgdecl) : Prop := {
  ft_name : is_ident (md_name m) = true /\ (String.length (md_name m) <= 1000)%nat;
  ft_names : forall d, In d (md_sigs m) -> is_ident (sd_name d) = true /\ (String.length (sd_name d) <= 900)%nat;
  ft_len : forall d, In d (md_sigs m) -> (1 <= sd_len d <= 64)%N;
  ft_frame : forall d k, In d (md_sigs m) -> (0 <= k < Z.of_N (sd_len d) -> 0 <= decl_pos d k < 8 * Z.of_N (md_dlc m))%Z;
  ft_units : forall d, In d (md_sigs m) -> (String.length (sd_unit d) <= 1000)%nat;
  ft_members : NoDup (flat_map members_of (md_sigs m));
  (* the names in one byte fit into one line of code *)
  ft_lines : forall i, (decl_size (filter (decl_in_byte i) (md_sigs m)) <= 9600)%Z
}.

(** ** Macros of the header *)

Definition scaled_fields (m : msgdecl) : list string := map field_name (filter (fun d => negb (unscaledb d)) (md_sigs m)).
Definition decl_names (D : string) (ms : list msgdecl) : list string :=
  ([("VER_" ++ D ++ "_MAJ")%string; ("VER_" ++ D ++ "_MIN")%string; (D ++ "_MAX_DLC_VALUE")%string;
    (D ++ "_VALIDATE_DLC")%string; (D ++ "_INITIAL_BYTE_VALUE")%string] ++
   flat_map (fun m => [(md_name m ++ "_IDE")%string; (md_name m ++ "_DLC")%string; (md_name m ++ "_CANID")%string]) ms ++
   flat_map (conv_names D) (nodup string_dec (flat_map scaled_fields ms)))%list.

(** ** From the text of a file to a program *)

(** a line that is no message, no signal and no comment, value table or attribute *)
Definition silent_block (b : block) : Prop := match b with BMsg _ => True | BLine l => opens_entry l = false end.

(** what the comments, value tables and attributes of the file lead to fits into the emitted code: texts of value tables are
    identifier characters, a counter is shorter than 31 bits, a checksum method is a name and its signal is in the first 8 bytes *)
Record entries_ok (m : message) : Prop := {
  en_tables : forall s t v, In s (g_sigs m) -> In (t, v) (s_valdefs s) -> all_chars is_idchar t = true /\ (String.length t <= 1000)%nat;
  en_roll : forall s, roll_sig m = Some s -> (s_len s < 31)%Z /\ ~ In (s_name s ++ "_expt")%string (member_names m);
  en_csm : forall s, csm_sig m = Some s ->
    is_ident (g_csmmethod m) = true /\ is_typename (g_csmmethod m) = false /\ (String.length (g_csmmethod m) <= 1000)%nat /\
    (0 <= g_csmop m < 2 ^ 31)%Z /\ in_frame (s_order s) (s_start s) (s_len s) 8
}.

(** the file is scanned, the driver is generated and compiled into the program [e] *)
Record project (srt : sorter) (bs : list block) (e : env) : Prop := {
  pj_sort : sorts srt;
  pj_blocks : forall b, In b bs -> block_ok b;
  pj_fits : forall m, In m (file_msgs bs) -> fits m;
  pj_msgs : NoDup (map md_name (file_msgs bs));
  pj_scan : scan srt (file_text bs) = Ok (e_db e);
  pj_run : exists srt out date dbc hi low nc ni nf rest,
    let s := configure (e_drv e) out (common_info date) (driver_info dbc) hi low nc ni nf in
    sorts srt /\ match date with Some t => no_nl t = true | None => True end /\ no_nl dbc = true /\
    (0 <= hi < 2 ^ 32)%Z /\ (0 <= low < 2 ^ 32)%Z /\ e_g e = st_g s /\
    generate_main srt (e_db e) s = Ok ((f_coreh_path (st_f s), e_h e) :: (f_corec_path (st_f s), e_src e) :: rest);
  pj_drv : is_ident (e_drv e) = true /\ (String.length (e_drv e) <= 900)%nat;
  pj_entries : forall m, In m (d_msgs (e_db e)) -> entries_ok m;
  (* the macros that the header defines *)
  pj_macros : NoDup ("__ext_sig__" :: header_names (str_toupper (e_drv e)) (e_db e));
  pj_locals : locals_free (e_conf e)
}.

(** Pack computes no counters or checksums: no comment of the file asks for one, or they are not switched on *)
Definition uncomputed (e : env) : Prop := forall m, In m (d_msgs (e_db e)) ->
  counter_on (e_macros e) (e_g e) m = None /\ checksum_on (e_macros e) (e_g e) m = None.
(** the optional parts are not switched on *)
Definition basic (e : env) : Prop := floats_on e = false /\ monitors_on e = false /\ uncomputed e.

(** the message of the data base that a declaration has become *)
Definition becomes (e : env) (md : msgdecl) (m : message) : Prop := In m (d_msgs (e_db e)) /\ g_name m = md_name md.
(** the declared signal that Pack increments, and the one that it computes from the other bytes *)
Definition counter_decl (e : env) (md : msgdecl) (d : sigdecl) : Prop :=
  exists m s, becomes e md m /\ counter_on (e_macros e) (e_g e) m = Some s /\ s_name s = field_name d.
Definition checksum_decl (e : env) (md : msgdecl) (d : sigdecl) : Prop :=
  exists m s, becomes e md m /\ checksum_on (e_macros e) (e_g e) m = Some s /\ s_name s = field_name d.

Definition unpack_decl (e : env) (m : msgdecl) : mem -> res (mem * option cval) :=
  call e ("Unpack_" ++ md_name m ++ "_" ++ e_drv e)%string.
Definition pack_decl (e : env) (m : msgdecl) : mem -> res (mem * option cval) :=
  call e ("Pack_" ++ md_name m ++ "_" ++ e_drv e)%string.
Definition frame_id (m : msgdecl) : Z := Z.of_N (plain_id (md_id m)).

(** [data] is in the array [p] of bytes, which is large enough *)
Definition data_at (mm : mem) (p : string) (m : msgdecl) (data : list Z) : Prop :=
  only_array mm p data /\ (forall x, In x data -> is_byte x) /\ (Z.of_N (md_dlc m) <= Z.of_nat (List.length data))%Z.
Definition struct_at (bits : bool) (mm : mem) (m : msgdecl) : Prop :=
  forall d, In d (md_sigs m) -> has_type mm (member (field_name d)) (field_object bits d).
Definition decl_is (mm : mem) (d : sigdecl) (z : Z) : Prop := int_at mm (member (field_name d)) = Some z.

(** a call of Unpack with payload [data], dlc_ [dl] and a struct *)
Record unpack_call (bits : bool) (m : msgdecl) (data : list Z) (dl : Z) (mm : mem) : Prop := {
  uc_data : data_at mm "_d" m data;
  uc_dlc : m_scal mm "dlc_" = Some (LInt U8, VI U8 dl) /\ (0 <= dl < 256)%Z;
  uc_struct : struct_at bits mm m
}.
(** a call of Pack: the frame's bytes are [data] before *)
Record pack_call (e : env) (bits : bool) (m : msgdecl) (mx : Z) (data : list Z) (mm : mem) : Prop := {
  pc_data : data_at mm (buffer (struct_on e)) m data;
  pc_len : if struct_on e
           then (exists v, m_scal mm "cframe->MsgId" = Some (LInt U32, v)) /\ (exists v, m_scal mm "cframe->DLC" = Some (LInt U8, v)) /\
                (exists v, m_scal mm "cframe->IDE" = Some (LInt U8, v))
           else (exists v, m_scal mm "*_len" = Some (LInt U8, v)) /\ (exists v, m_scal mm "*_ide" = Some (LInt U8, v));
  pc_struct : struct_at bits mm m;
  pc_ini : initial_is e 0;
  pc_max : maxdlc_is e mx /\ (Z.of_N (md_dlc m) <= mx < 256)%Z
}.
(** a counter has a second member in the struct *)
Definition counter_at (e : env) (bits : bool) (m : msgdecl) (mm : mem) : Prop :=
  forall d, In d (md_sigs m) -> counter_decl e m d -> has_type mm (member (field_name d ++ "_expt")) (field_object bits d).
(** with monitors: the object for the monitor, and what the application supplies (tick, checksum function, FMon function) *)
Definition monitored (e : env) (md : msgdecl) (mm : mem) : Prop :=
  monitors_on e = true -> forall m, becomes e md m -> exists tick hash hook, monitors (e_evals e) (e_ctx e) (e_g e) m mm tick hash hook.
(** what Pack needs for a counter or a checksum: the counter's value fits into its bits, the checksum is inside one byte, and the
    application's checksum function returns [hash] of the bytes *)
Record computing (e : env) (bits : bool) (md : msgdecl) (hash : list Z -> Z) (mm : mem) : Prop := {
  cg_expt : counter_at e bits md mm;
  cg_range : forall d z, In d (md_sigs md) -> counter_decl e md d -> decl_is mm d z -> decl_carries d z;
  cg_byte : forall d k, In d (md_sigs md) -> checksum_decl e md d -> (0 <= k < Z.of_N (sd_len d))%Z -> (decl_pos d k / 8 = decl_pos d 0 / 8)%Z;
  cg_hash : forall m, becomes e md m -> checksum_on (e_macros e) (e_g e) m <> None ->
    hash_ok (e_evals e) (e_ctx e) m (buffer_expr (struct_on e)) (buffer (struct_on e)) hash /\
    m_scal mm (g_csmmethod m) = None /\ g_csmmethod m <> "i"
}.
(** [data0] is [data] with the bits of [d] cleared *)
Record cleared (d : sigdecl) (data data0 : list Z) : Prop := {
  cl_len : List.length data0 = List.length data;
  cl_bytes : forall x, In x data0 -> is_byte x;
  cl_in : forall p, decl_covers d p -> payload_bit data0 p = false;
  cl_out : forall p, (0 <= p)%Z -> ~ decl_covers d p -> payload_bit data0 p = payload_bit data p
}.
(** no payload bit belongs to two members *)
Definition disjoint_bits (m : msgdecl) : Prop :=
  forall a b p, In a (md_sigs m) -> In b (md_sigs m) -> decl_covers a p -> decl_covers b p -> field_name a = field_name b.
(** signed signals within the width of the default helper type *)
Definition short_signed (m : msgdecl) : Prop := forall d, In d (md_sigs m) -> sd_signed d = true -> (sd_len d <= 32)%N.

(** ** Files that the tool can work through *)

Definition int64 (z : Z) : Prop := (- 2 ^ 63 <= z < 2 ^ 63)%Z.
(** the numbers from which the types of a signal are computed stay inside int64_t, integer scalings inside int *)
Record sized_decl (d : sigdecl) : Prop := {
  sz_len : (sd_len d <= if sd_signed d then 63 else 62)%N;
  (* the double offset / factor *)
  sz_ratio : exists z, dtrunc (ddiv (num_value (sd_offset d)) (num_value (sd_factor d))) = Some z /\ int64 z;
  sz_ints : forall f o, sd_factor d = NInt f -> sd_offset d = NInt o ->
    (- 2 ^ 31 <= f < 2 ^ 31 /\ - 2 ^ 31 <= o < 2 ^ 31 /\ 2 ^ Z.of_N (sd_len d) * Z.abs f + Z.abs o < 2 ^ 63)%Z
}.
(** no run of more than 19 digits *)
Fixpoint digit_runs (n : nat) (s : string) : bool :=
  match s with
  | EmptyString => true
  | String c r => if is_digit c then (n <? 19)%nat && digit_runs (S n) r else digit_runs 0 r
  end.
Definition sized_block (b : block) : Prop :=
  match b with BMsg m => forall d, In d (md_sigs m) -> sized_decl d | BLine l => digit_runs 0 l = true end.
(** what is asked of the driver name, the declarations and the data base [d] that the scanner makes of the file *)
Record sound_file (drv : string) (bs : list block) (d : dbclist) : Prop := {
  sf_blocks : forall b, In b bs -> block_ok b /\ sized_block b;
  sf_fits : forall m, In m (file_msgs bs) -> fits m;
  sf_msgs : NoDup (map md_name (file_msgs bs));
  sf_drv : is_ident drv = true /\ (String.length drv <= 900)%nat;
  sf_entries : forall m, In m (d_msgs d) -> entries_ok m /\ counter_fits m;
  sf_macros : NoDup ("__ext_sig__" :: header_names (str_toupper drv) d)
}.
(** what is asked of the driver name and the declarations of a file without comments, value tables and attributes *)
Record declared_file (drv : string) (bs : list block) : Prop := {
  df_blocks : forall b, In b bs -> block_ok b /\ silent_block b /\ sized_block b;
  df_fits : forall m, In m (file_msgs bs) -> fits m;
  df_msgs : NoDup (map md_name (file_msgs bs));
  df_drv : is_ident drv = true /\ (String.length drv <= 900)%nat;
  df_macros : NoDup ("__ext_sig__" :: decl_names (str_toupper drv) (file_msgs bs))
}.

