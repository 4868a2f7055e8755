(** Model of /repo/src/codegen/c-util-generator.cpp and conditional-tree.cpp: the binutil header
    and source with the Receive dispatcher. *)

From Coq Require Import ZArith NArith List String Ascii Bool.
From Verif Require Import Base Types Formatter Writer Settings MainGen.
Import ListNotations.
Open Scope string_scope.

(** ** conditional-tree *)

(** ConditionalTree_t, conditional-tree.h 6-25 *)
Inductive ctree :=
| CCond (cond : string) (high low : option ctree)
| CExpress (cond body : string)
| CSingle (body : string).

(** PrintCode, conditional-tree.cpp 60-69.  The indent is a uint8_t; it is the depth of the tree
    plus one and stays below 256. *)
Definition print_code (indent : nat) (s : string) : string := repeat_char indent " " ++ s ++ nl.

(** WriteCode, conditional-tree.cpp 10-58: the text added to codestr *)
Fixpoint write_code (indent : nat) (t : ctree) : string :=
  let sub (o : option ctree) := match o with Some t' => write_code (S indent) t' | None => "" end in
  match t with
  | CCond c high low =>
      print_code indent (str_print ("if (" ++ c ++ ") {"))
        ++ sub high
        ++ match low with
           | Some t' =>
               print_code indent
                 (match t' with
                  | CExpress c' _ => str_print ("} else if (" ++ c' ++ ") {")
                  | _ => "} else {"
                  end)
                 ++ write_code (S indent) t'
                 ++ print_code indent "}"
           | None => print_code indent "}"
           end
  | CExpress _ body => print_code indent (str_print body)
  | CSingle body => print_code indent (str_print body)
  end.

(** ** util generator *)

(** "_id == 0x%XU", c-util-generator.cpp 284, 302, 312 *)
Definition id_eq_text (m : message) : string :=
  str_print ("_id == 0x" ++ hexu (Z.to_N (g_id m)) ++ "U").
Definition id_range_text (a b : message) : string :=
  str_print ("(_id >= 0x" ++ hexu (Z.to_N (g_id a)) ++ "U) && (_id < 0x"
               ++ hexu (Z.to_N (g_id b)) ++ "U)").
Definition call_text (drv : string) (m : message) : string :=
  str_print ("recid = Unpack_" ++ g_name m ++ "_" ++ drv ++ "(&(_m->" ++ g_name m
               ++ "), _d, dlc_);").

Definition no_message : message :=
  {| g_name := ""; g_dlc := 0; g_id := 0; g_ext := 0; g_cycle := 0; g_trans := []; g_recs := [];
     g_sigs := []; g_hasphys := false; g_notempty := false; g_roll := None; g_csm := None;
     g_csmmethod := ""; g_csmop := 0; g_comment := "" |}.

(** FillTreeLevel, c-util-generator.cpp 263-318.  Indices are natural numbers instead of
    int32_t; every index used is below the length of the list (l < h <= size). *)
Fixpoint fill_tree (fuel : nat) (drv : string) (l : list message) (lo hi : nat) (started : bool)
  : option ctree :=
  match fuel with
  | O => None
  | S f =>
      let span := (hi - lo)%nat in
      let lowhalf := Nat.div2 span in
      let m := nth lo l no_message in
      if (hi <? 1)%nat then None
      else if negb started && (hi =? 1)%nat then
        Some (CCond (id_eq_text m) (Some (CSingle (call_text drv m))) None)
      else if (1 <? span)%nat then
        let cond := if (1 <? lowhalf)%nat
                    then id_range_text m (nth (lo + lowhalf) l no_message)
                    else id_eq_text m in
        Some (CCond cond (fill_tree f drv l lo (lo + lowhalf) true)
                    (fill_tree f drv l (lo + lowhalf) hi true))
      else Some (CExpress (id_eq_text m) (call_text drv m))
  end.

Definition zmem (z : Z) (l : list Z) : bool := existsb (Z.eqb z) l.

(** the rx and tx groups, c-util-generator.cpp 39-89 *)
Definition group_rx (k : msgclass) (l : list message) : list message :=
  filter (fun m => g_notempty m && (zmem (g_id m) (k_both k) || zmem (g_id m) (k_rx k))) l.
Definition group_tx (k : msgclass) (l : list message) : list message :=
  filter (fun m => g_notempty m && (zmem (g_id m) (k_both k) || zmem (g_id m) (k_tx k))) l.

Definition nonempty {A} (l : list A) : bool := match l with [] => false | _ => true end.

(** PrintHeader, c-util-generator.cpp 101-192 *)
Definition util_header (g : gendesc) (file_drvname : string) (rx tx : list message)
  : list string :=
  let d := n_drv g in
  let struct (l : list message) (kind KIND : string) :=
    if nonempty l then
      ([L ("typedef struct" ++ nl ++ "{")]
         ++ map (fun m => L ("  " ++ g_name m ++ "_t " ++ g_name m ++ ";")) l
         ++ [L ("} " ++ d ++ "_" ++ kind ++ "_t;"); nls 1])%list
    else [L ("// There is no any " ++ KIND ++ " mapped massage."); nls 1] in
  ([n_cominfo g; n_drvinfo g; L "#pragma once"; nls 1; append_s cpp_open; nls 1;
    L ("#include " ++ dq ++ "dbccodeconf.h" ++ dq); nls 1;
    L ("#include " ++ dq ++ file_drvname ++ ".h" ++ dq); nls 1]
     ++ struct rx "rx" "RX" ++ struct tx "tx" "TX"
     ++ (if nonempty rx
         then [L ("uint32_t " ++ d ++ "_Receive(" ++ d
                    ++ "_rx_t* m, const uint8_t* d, uint32_t msgid, uint8_t dlc);"); nls 1]
         else [])
     ++ (if nonempty rx || nonempty tx then
           [L ("#ifdef __DEF_" ++ n_DRV g ++ "__"); nls 1]
             ++ (if nonempty rx then [L ("extern " ++ d ++ "_rx_t " ++ d ++ "_rx;"); nls 1] else [])
             ++ (if nonempty tx then [L ("extern " ++ d ++ "_tx_t " ++ d ++ "_tx;"); nls 1] else [])
             ++ [L ("#endif // __DEF_" ++ n_DRV g ++ "__"); nls 1]
         else [])
     ++ [append_s cpp_close])%list.

(** the body of Receive, c-util-generator.cpp 239-254 *)
Definition receive_text (g : gendesc) (code_drvname : string) (rx : list message) : list string :=
  let d := n_drv g in
  let n := List.length rx in
  [L ("uint32_t " ++ d ++ "_Receive(" ++ d
        ++ "_rx_t* _m, const uint8_t* _d, uint32_t _id, uint8_t dlc_)");
   L "{"; L " uint32_t recid = 0;";
   append_s (match fill_tree (S n) code_drvname rx 0 n false with
             | Some t => write_code 1 t
             | None => ""
             end);
   nls 1; L " return recid;"; L "}"; nls 1].

(** PrintSource, c-util-generator.cpp 194-261 *)
Definition util_source (g : gendesc) (utilh code_drvname : string) (hi low : Z)
           (rx tx : list message) : list string :=
  let d := n_drv g in
  ([n_cominfo g; n_drvinfo g; L ("#include " ++ dq ++ utilh ++ dq); nls 1;
    L "// DBC file version";
    L ("#if (" ++ n_verhi g ++ " != (" ++ pu hi ++ "U)) || (" ++ n_verlow g ++ " != (" ++ pu low
         ++ "U))");
    L ("#error The " ++ n_DRV g ++ " binutil source file has inconsistency with core dbc lib!");
    L "#endif"; nls 1]
     ++ (if nonempty rx || nonempty tx then
           [L ("#ifdef __DEF_" ++ n_DRV g ++ "__"); nls 1]
             ++ (if nonempty rx then [L (d ++ "_rx_t " ++ d ++ "_rx;"); nls 1] else [])
             ++ (if nonempty tx then [L (d ++ "_tx_t " ++ d ++ "_tx;"); nls 1] else [])
             ++ [L ("#endif // __DEF_" ++ n_DRV g ++ "__"); nls 1]
         else [])
     ++ (if nonempty rx then receive_text g code_drvname rx else []))%list.

(** CiUtilGenerator::Generate, c-util-generator.cpp 28-99: the files written, in order *)
Definition generate_util (srt : sorter) (d : dbclist) (s : settings) (k : msgclass)
           (drvname : string) : list (string * string) :=
  let g := st_g s in
  let f := st_f s in
  let rx := srt message g_id (group_rx k (d_msgs d)) in
  let tx := srt message g_id (group_tx k (d_msgs d)) in
  [(f_utilh_path f, sconcat (util_header g (str_tolower drvname) rx tx));
   (f_utilc_path f,
    sconcat (util_source g (f_utilh f) drvname (d_verhi d) (d_verlow d) rx tx))].
