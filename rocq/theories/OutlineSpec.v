(** What the core header is to a C compiler: struct types and prototypes. *)

From Coq Require Import ZArith List String Ascii Bool.
From Verif Require Import Base Dbl CSyntax CSem CRun Types Settings MainGen App CodecSpec MsgSpec DriverSpec HeaderSpec CodecEnv StructSpec.
Import ListNotations.
Open Scope string_scope.

(** the messages for which code is generated *)
Definition with_signals (ms : list message) : list message := filter g_notempty ms.

(** type name; or type name : width; *)
Definition member_toks (d : mdecl) : list tok :=
  ([TId (md_type d); TId (md_name d)] ++ match md_bits d with Some w => [TP PColon; TInt I32 w] | None => [] end ++ [TP PSemi])%list.
(** typedef struct { members } x; *)
Definition typedef_toks (x : string) (ds : list mdecl) : list tok :=
  ([TId "typedef"; TId "struct"; TP PLbrace] ++ flat_map member_toks ds ++ [TP PRbrace; TId x; TP PSemi])%list.

(** uint32_t Unpack_X_drv(X_t* _m, const uint8_t* _d, uint8_t dlc_) *)
Definition unpack_head (drv : string) (m : message) : list tok :=
  [TId "uint32_t"; TId (unpack_name drv m); TP PLpar; TId (type_name m); TP (PBin OMul); TId "_m";
   TP PComma; TId "const"; TId "uint8_t"; TP (PBin OMul); TId "_d"; TP PComma; TId "uint8_t"; TId "dlc_"; TP PRpar].
(** uint32_t Pack_X_drv(X_t* _m, __CoderDbcCanFrame_t__* cframe) or
    uint32_t Pack_X_drv(X_t* _m, uint8_t* _d, uint8_t* _len, uint8_t* _ide) *)
Definition pack_head (drv : string) (frames : bool) (m : message) : list tok :=
  ([TId "uint32_t"; TId (pack_name drv m); TP PLpar; TId (type_name m); TP (PBin OMul); TId "_m"; TP PComma] ++
   (if frames then [TId "__CoderDbcCanFrame_t__"; TP (PBin OMul); TId "cframe"]
    else [TId "uint8_t"; TP (PBin OMul); TId "_d"; TP PComma; TId "uint8_t"; TP (PBin OMul); TId "_len"; TP PComma;
          TId "uint8_t"; TP (PBin OMul); TId "_ide"]) ++ [TP PRpar])%list.
(** static bitext_t __ext_sig__(ubitext_t val, uint8_t bits), the function for signs *)
Definition sign_head : list tok :=
  [TId "static"; TId "bitext_t"; TId "__ext_sig__"; TP PLpar; TId "ubitext_t"; TId "val"; TP PComma; TId "uint8_t"; TId "bits"; TP PRpar].

(** the struct of a message under the configuration of [e] *)
Definition members_in (e : env) (m : message) : list mdecl :=
  all_members (on e n_usebits) (on e n_usesigfloat) (on e n_useroll) (on e n_usemon) m.
(** extern "C" { and }, for a C++ compiler; the reader of tokens keeps quotes as single tokens *)
Definition linkage_open (e : env) : list tok :=
  if defined "__cplusplus" (e_conf e) then [TId "extern"; TBad; TId "C"; TBad; TP PLbrace] else [].
Definition linkage_close (e : env) : list tok := if defined "__cplusplus" (e_conf e) then [TP PRbrace] else [].
(** all struct types, then all prototypes *)
Definition outline (e : env) (ms : list message) : list tok :=
  (linkage_open e ++ flat_map (fun m => typedef_toks (type_name m) (members_in e m)) ms ++
   flat_map (fun m => unpack_head (e_drv e) m ++ [TP PSemi] ++ pack_head (e_drv e) (on e n_usestruct) m ++ [TP PSemi]) ms ++ linkage_close e)%list.
(** heads of the functions of the source *)
Definition definitions (e : env) (ms : list message) : list (list tok) :=
  (sign_head :: flat_map (fun m => [unpack_head (e_drv e) m; pack_head (e_drv e) (on e n_usestruct) m]) ms)%list.
