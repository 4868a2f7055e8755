(** Lines of a DBC file and what they say, written down independently of the parser. *)

From Coq Require Import ZArith NArith List String Ascii Bool.
From Verif Require Import Base Types.
Import ListNotations.
Open Scope string_scope.

(** ** Printed lines *)

(** a message: BO_ 291 Engine: 8 ECU *)
Definition bo_line (id : N) (name : string) (dlc : N) (tx : string) : string :=
  "BO_ " ++ dec id ++ " " ++ name ++ ": " ++ dec dlc ++ " " ++ tx.

(** transmitters: BO_TX_BU_ 291 : A,B; *)
Fixpoint commas (l : list string) : string :=
  match l with
  | [] => ""
  | [x] => x
  | x :: r => x ++ "," ++ commas r
  end.
Definition tx_line (id : N) (nodes : list string) : string :=
  "BO_TX_BU_ " ++ dec id ++ " : " ++ commas nodes ++ ";".

(** cycle time: BA_ "GenMsgCycleTime" BO_ 291 100; *)
Definition cycle_line (id n : N) : string :=
  "BA_ " ++ dq ++ "GenMsgCycleTime" ++ dq ++ " BO_ " ++ dec id ++ " " ++ dec n ++ ";".

(** value table: VAL_ 291 Gear 0 "Neutral" 1 "First" ; *)
Definition val_line (id : N) (sig : string) (vals : list (Z * string)) : string :=
  "VAL_ " ++ dec id ++ " " ++ sig ++ " "
    ++ sconcat (map (fun p => decZ (fst p) ++ " " ++ dq ++ snd p ++ dq ++ " ") vals) ++ ";".

(** comment of a message or of one of its signals, first line without the rest of the text *)
Definition comment_head (id : N) (sig : option string) : string :=
  match sig with
  | None => "CM_ BO_ " ++ dec id ++ " " ++ dq
  | Some s => "CM_ SG_ " ++ dec id ++ " " ++ s ++ " " ++ dq
  end.
(** a comment over several lines: the text [t], with further lines [r] *)
Fixpoint comment_tail (t : string) (r : list string) : list string :=
  match r with
  | [] => [t ++ dq ++ ";"]
  | u :: r' => t :: comment_tail u r'
  end.
Definition comment_lines_of (id : N) (sig : option string) (t : string) (r : list string) : list string :=
  match comment_tail t r with
  | [] => []
  | a :: b => (comment_head id sig ++ a) :: b
  end.
(** its text *)
Fixpoint joined (t : string) (r : list string) : string :=
  match r with
  | [] => t
  | u :: r' => t ++ nl ++ joined u r'
  end.

Definition version_line (a b : N) : string := "VERSION " ++ dq ++ dec a ++ "." ++ dec b ++ dq.

(** a signal:  SG_ Speed : 4|12@1+ (2,-100) [0|100] "km/h" A,B *)
Definition order_mark (o : layout) : string := match o with Intel => "1" | Motorola => "0" end.
Definition sg_line (name mx : string) (start len : N) (o : layout) (signed : bool) (factor offset lo hi unit : string)
    (recs : list string) : string :=
  " SG_ " ++ name ++ mx ++ " : " ++ dec start ++ "|" ++ dec len ++ "@" ++ order_mark o ++ (if signed then "-" else "+")
    ++ " (" ++ factor ++ "," ++ offset ++ ") [" ++ lo ++ "|" ++ hi ++ "] " ++ dq ++ unit ++ dq ++ " " ++ commas recs.

(** ** Words used above *)

Definition node_char (c : ascii) : bool := is_alnum c || Ascii.eqb c "_".
(** a node name: letters, digits and underscores *)
Definition node_name (s : string) : Prop := s <> "" /\ all_chars node_char s = true.
Definition no_quote (s : string) : bool := all_chars (fun c => negb (Ascii.eqb c DQ)) s.
(** the last character is visible and of the ASCII range, so that nothing is trimmed *)
Definition solid_end (s : string) : bool :=
  match last_char s with
  | Some c => (32 <? code c)%N && (code c <? 128)%N
  | None => false
  end.

(** ** Messages *)

(** 11 or 29 bit identifier as DBC files store it: bit 31 marks extended frames *)
Definition plain_id (id : N) : N := (id mod 2 ^ 29)%N.
Definition valid_header (id dlc : N) : Prop :=
  N.testbit id 29 = false /\ N.testbit id 30 = false /\ (1 <= dlc <= 64)%N.

(** two messages that agree except for what comments, value tables and attributes add *)
Definition same_signal (a b : signal) : Prop :=
  s_name a = s_name b /\ s_namefloat a = s_namefloat b /\ s_unit a = s_unit b /\ s_start a = s_start b /\
  s_len a = s_len b /\ s_double a = s_double b /\ s_simple a = s_simple b /\ s_factor a = s_factor b /\
  s_offset a = s_offset b /\ s_order a = s_order b /\ s_signed a = s_signed b /\ s_typero a = s_typero b /\
  s_typephys a = s_typephys b /\ s_recs a = s_recs b /\ s_mux a = s_mux b.
Record same_message (a b : message) : Prop := {
  sm_name : g_name a = g_name b;
  sm_dlc : g_dlc a = g_dlc b;
  sm_id : g_id a = g_id b;
  sm_ext : g_ext a = g_ext b;
  sm_trans : g_trans a = g_trans b;
  sm_recs : g_recs a = g_recs b;
  sm_phys : g_hasphys a = g_hasphys b;
  sm_notempty : g_notempty a = g_notempty b;
  sm_sigs : Forall2 same_signal (g_sigs a) (g_sigs b)
}.

(** ** Structure of a file *)

(** the lines before the first message line, then every message line with the lines up to the next one *)
Fixpoint groups (ls : list string) : list string * list (string * list string) :=
  match ls with
  | [] => ([], [])
  | l :: r =>
      let '(pre, gs) := groups r in
      if String.prefix "BO_ " l then ([], (l, pre) :: gs) else (l :: pre, gs)
  end.

(** the elements up to the first one that has property [p], that one included *)
Fixpoint upto {A} (p : A -> bool) (l : list A) : list A :=
  match l with
  | [] => []
  | x :: r => x :: (if p x then [] else upto p r)
  end.

(** ** Entries that follow the messages *)

Inductive entry :=
| ECycle (id n : N)
| EVals (id : N) (sig : string) (vals : list (Z * string))
| EComment (id : N) (sig : option string) (first : string) (more : list string)
| EOther (line : string).

Definition entry_lines (e : entry) : list string :=
  match e with
  | ECycle id n => [cycle_line id n]
  | EVals id s v => [val_line id s v]
  | EComment id s t r => comment_lines_of id s t r
  | EOther l => [l]
  end.
Definition file_lines (es : list entry) : list string := flat_map entry_lines es.

(** the message an entry is about *)
Definition entry_id (e : entry) : option N :=
  match e with
  | ECycle id _ | EVals id _ _ | EComment id _ _ _ => Some (plain_id id)
  | EOther _ => None
  end.
Definition names (i : Z) (e : entry) : bool :=
  match entry_id e with Some n => (Z.of_N n =? i)%Z | None => false end.

(** a line that opens a comment, a value table or an attribute value *)
Definition opens_entry (l : string) : bool :=
  String.prefix "CM_" l || String.prefix "VAL_ " l || String.prefix "BA_ " l.
Definition text_char (c : ascii) : bool := negb (Ascii.eqb c DQ) && negb (Ascii.eqb c NL).
Definition ends_semicolon (s : string) : bool :=
  match last_char s with Some c => Ascii.eqb c ";" | None => false end.
(** a line of a comment that is followed by another line *)
Definition inner_line (s : string) : Prop := solid_end s = true /\ ends_semicolon s = false.

Definition number (n : N) : Prop := (n < 2 ^ 63)%N.
Definition entry_ok (e : entry) : Prop :=
  match e with
  | ECycle id n => number id /\ number n
  | EVals id s v =>
      number id /\ node_name s /\
      (forall p, In p v -> (- 2 ^ 63 <= fst p < 2 ^ 63)%Z /\ all_chars text_char (snd p) = true)
  | EComment id s t r =>
      number id /\ (forall x, s = Some x -> node_name x) /\
      (forall u, In u (t :: r) -> all_chars text_char u = true) /\
      (forall u, In u r -> opens_entry (u ++ dq) = false) /\
      (r = [] \/ (t = "" \/ inner_line t) /\ (forall u, In u (removelast r) -> inner_line u) /\ last r "" <> "")
  | EOther l => opens_entry l = false
  end.
