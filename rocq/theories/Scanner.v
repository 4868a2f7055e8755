(** Model of /repo/src/parser/dbcscanner.cpp: the two passes over the text of a DBC file. *)

From Coq Require Import ZArith NArith List String Ascii Bool.
From Verif Require Import Base Dbl Types Formatter MainGen LineParser.
Import ListNotations.
Open Scope string_scope.

(** std::getline over a whole stream: text after the last line feed counts only if not empty *)
Fixpoint getlines_from (rcur : string) (s : string) : list string :=
  match s with
  | EmptyString => if String.eqb rcur "" then [] else [rev_string rcur]
  | String c r =>
      if Ascii.eqb c NL then rev_string rcur :: getlines_from "" r
      else getlines_from (String c rcur) r
  end.
Definition getlines (s : string) : list string := getlines_from "" s.

(** find_message, dbcscanner.cpp 11-32: index of the first message with the id, else of the last
    message; None for an empty list *)
Fixpoint find_message (msgs : list message) (id : Z) : option nat :=
  match msgs with
  | [] => None
  | [m] => Some O
  | m :: r => if (g_id m =? id)%Z then Some O else option_map S (find_message r id)
  end.

Fixpoint update_nth {A} (n : nat) (f : A -> A) (l : list A) : list A :=
  match l, n with
  | [], _ => []
  | x :: r, O => f x :: r
  | x :: r, S n' => x :: update_nth n' f r
  end.

Definition update_message (msgs : list message) (id : Z) (f : message -> message) : list message :=
  match find_message msgs id with
  | Some i => update_nth i f msgs
  | None => msgs
  end.

(** push_back unless present *)
Definition add_new (l : list string) (x : string) : list string :=
  if smem x l then l else (l ++ [x])%list.

Definition with_sigs (m : message) (sigs : list signal) (recs : list string) : message :=
  {| g_name := g_name m; g_dlc := g_dlc m; g_id := g_id m; g_ext := g_ext m; g_cycle := g_cycle m;
     g_trans := g_trans m; g_recs := recs; g_sigs := sigs; g_hasphys := g_hasphys m;
     g_notempty := g_notempty m; g_roll := g_roll m; g_csm := g_csm m;
     g_csmmethod := g_csmmethod m; g_csmop := g_csmop m; g_comment := g_comment m |}.

Definition push_sig (m : message) (s : signal) : message :=
  {| g_name := g_name m; g_dlc := g_dlc m; g_id := g_id m; g_ext := g_ext m; g_cycle := g_cycle m;
     g_trans := g_trans m; g_recs := g_recs m; g_sigs := (g_sigs m ++ [s])%list;
     g_hasphys := g_hasphys m || s_double s || negb (s_simple s);
     g_notempty := true; g_roll := g_roll m; g_csm := g_csm m;
     g_csmmethod := g_csmmethod m; g_csmop := g_csmop m; g_comment := g_comment m |}.

Definition with_trans (m : message) (t : list string) : message :=
  {| g_name := g_name m; g_dlc := g_dlc m; g_id := g_id m; g_ext := g_ext m; g_cycle := g_cycle m;
     g_trans := t; g_recs := g_recs m; g_sigs := g_sigs m; g_hasphys := g_hasphys m;
     g_notempty := g_notempty m; g_roll := g_roll m; g_csm := g_csm m;
     g_csmmethod := g_csmmethod m; g_csmop := g_csmop m; g_comment := g_comment m |}.

Definition with_comment (m : message) (t : string) : message :=
  {| g_name := g_name m; g_dlc := g_dlc m; g_id := g_id m; g_ext := g_ext m; g_cycle := g_cycle m;
     g_trans := g_trans m; g_recs := g_recs m; g_sigs := g_sigs m; g_hasphys := g_hasphys m;
     g_notempty := g_notempty m; g_roll := g_roll m; g_csm := g_csm m;
     g_csmmethod := g_csmmethod m; g_csmop := g_csmop m; g_comment := t |}.

Definition with_cycle (m : message) (c : Z) : message :=
  {| g_name := g_name m; g_dlc := g_dlc m; g_id := g_id m; g_ext := g_ext m; g_cycle := c;
     g_trans := g_trans m; g_recs := g_recs m; g_sigs := g_sigs m; g_hasphys := g_hasphys m;
     g_notempty := g_notempty m; g_roll := g_roll m; g_csm := g_csm m;
     g_csmmethod := g_csmmethod m; g_csmop := g_csmop m; g_comment := g_comment m |}.

Definition with_marks (m : message) (sigs : list signal) (roll csm : option nat) (meth : string)
           (op : Z) : message :=
  {| g_name := g_name m; g_dlc := g_dlc m; g_id := g_id m; g_ext := g_ext m; g_cycle := g_cycle m;
     g_trans := g_trans m; g_recs := g_recs m; g_sigs := sigs; g_hasphys := g_hasphys m;
     g_notempty := g_notempty m; g_roll := roll; g_csm := csm;
     g_csmmethod := meth; g_csmop := op; g_comment := g_comment m |}.

(** AddMessage, dbcscanner.cpp 286-317; std::sort is the parameter [srt] *)
Definition add_message (srt : sorter) (msgs : list message) (cur : option message)
  : list message :=
  match cur with
  | None => msgs
  | Some m =>
      let sigs := srt signal s_start (g_sigs m) in
      (msgs ++ [with_sigs m sigs (fold_left add_new (flat_map s_recs sigs) (g_recs m))])%list
  end.

(** state of the first pass: messages, maxDlcValue, version, current message *)
Record pass1 := {
  p_msgs : list message; p_max : Z; p_hi : Z; p_low : Z; p_cur : option message
}.

(** one line of ParseMessageInfo, dbcscanner.cpp 74-152 *)
Definition info_line (srt : sorter) (st : pass1) (raw : string) : res pass1 :=
  let line := str_trim raw in
  do ver <- find_version line;
  let hi := match ver with Some (h, _) => h | None => p_hi st end in
  let low := match ver with Some (_, l) => l | None => p_low st end in
  let '(msgs, mx, cur) :=
    if is_message_line line then
      (add_message srt (p_msgs st) (p_cur st),
       match p_cur st with
       | Some m => if (p_max st <? g_dlc m)%Z then g_dlc m else p_max st
       | None => p_max st
       end,
       parse_message_line line)
    else (p_msgs st, p_max st, p_cur st) in
  do cur <- match cur with
            | Some m =>
                if is_signal_line line then
                  do s <- parse_signal_line line;
                  Ok (Some (match s with Some s => push_sig m s | None => m end))
                else Ok cur
            | None => Ok cur
            end;
  let '(txid, txs) := parse_multi_trans line in
  if (txid =? 0)%Z then
    Ok {| p_msgs := msgs; p_max := mx; p_hi := hi; p_low := low; p_cur := cur |}
  else
    Ok {| p_msgs := update_message (add_message srt msgs cur) txid
                      (fun m => with_trans m (fold_left add_new txs (g_trans m)));
          p_max := mx; p_hi := hi; p_low := low; p_cur := None |}.

Fixpoint fold_res {S A} (f : S -> A -> res S) (s : S) (l : list A) : res S :=
  match l with
  | [] => Ok s
  | x :: r => do s' <- f s x; fold_res f s' r
  end.

(** ParseMessageInfo, dbcscanner.cpp 68-156 *)
Definition parse_message_info (srt : sorter) (ls : list string) : res dbclist :=
  do st <- fold_res (info_line srt)
             {| p_msgs := []; p_max := 0; p_hi := 0; p_low := 0; p_cur := None |} ls;
  Ok {| d_msgs := add_message srt (p_msgs st) (p_cur st); d_maxdlc := p_max st;
        d_verhi := p_hi st; d_verlow := p_low st |}.

(** the checksum marker, dbcscanner.cpp 205-217: method and operand text *)
Definition csm_marker (text : string) : option (string * string) :=
  match index 0 "<" text with
  | None => None
  | Some o =>
      match index o ">" text with
      | None => None
      | Some c =>
          if (o + 1 <? c)%nat then
            match split_each (Ascii.eqb ":") (substring (o + 1) (c - 1) text) with
            | ["Checksum"; m; op] => Some (m, op)
            | _ => None
            end
          else None
      end
  end.

(** boundary_ok, dbcscanner.cpp 221-223, in uint32_t arithmetic *)
Definition boundary_ok (s : signal) : bool :=
  let other := match s_order s with
               | Intel => uwrap 32 (s_start s + s_len s - 1)
               | Motorola => uwrap 32 (s_start s - s_len s + 1)
               end in
  (s_start s / 8 =? other / 8)%Z.

Definition has_sub (p s : string) : bool :=
  match index 0 p s with Some _ => true | None => false end.

Definition sig_comment (s : signal) (t : string) : signal :=
  {| s_name := s_name s; s_namefloat := s_namefloat s; s_unit := s_unit s; s_start := s_start s;
     s_len := s_len s; s_double := s_double s; s_simple := s_simple s; s_factor := s_factor s;
     s_offset := s_offset s; s_order := s_order s; s_signed := s_signed s; s_typero := s_typero s;
     s_typephys := s_typephys s; s_recs := s_recs s; s_valdefs := s_valdefs s; s_comment := t;
     s_valtext := s_valtext s; s_mux := s_mux s |}.

Definition sig_values (s : signal) (t : string) (v : list (string * Z)) : signal :=
  {| s_name := s_name s; s_namefloat := s_namefloat s; s_unit := s_unit s; s_start := s_start s;
     s_len := s_len s; s_double := s_double s; s_simple := s_simple s; s_factor := s_factor s;
     s_offset := s_offset s; s_order := s_order s; s_signed := s_signed s; s_typero := s_typero s;
     s_typephys := s_typephys s; s_recs := s_recs s; s_valdefs := v; s_comment := s_comment s;
     s_valtext := t; s_mux := s_mux s |}.

(** the loop over the signals of a commented message, dbcscanner.cpp 188-235; [i] is the index of
    the head of [todo] *)
Fixpoint comment_loop (name text : string) (i : nat) (todo : list signal) (m : message) : message :=
  match todo with
  | [] => m
  | s :: r =>
      let m' :=
        if String.eqb name (s_name s) || String.eqb (name ++ "_ro") (s_name s) then
          let roll := if has_sub "<RollingCounter>" text then Some i else g_roll m in
          let sigs := update_nth i (fun s => sig_comment s text) (g_sigs m) in
          match csm_marker text with
          | Some (meth, op) =>
              if s_simple s && boundary_ok s && negb (s_signed s)
              then with_marks m sigs roll (Some i) meth (uwrap 32 (atoi op))
              else with_marks m sigs roll (g_csm m) (g_csmmethod m) (g_csmop m)
          | None => with_marks m sigs roll (g_csm m) (g_csmmethod m) (g_csmop m)
          end
        else m in
      comment_loop name text (S i) r m'
  end.

Definition comment_signals (name text : string) (m : message) : message :=
  comment_loop name text 0 (g_sigs m) m.

(** value table of the signals called [name], dbcscanner.cpp 255-264 *)
Definition value_signals (name text : string) (vals : list (string * Z)) (m : message) : message :=
  with_sigs m
    (map (fun s => if String.eqb name (s_name s) then sig_values s text vals else s) (g_sigs m))
    (g_recs m).

(** state of the second pass: messages and the three pending texts *)
Record pass2 := {
  q_msgs : list message; q_comment : string; q_val : string; q_attr : string
}.

(** one line of ParseOtherInfo, dbcscanner.cpp 169-282 *)
Definition other_line (st : pass2) (raw : string) : pass2 :=
  let line := str_trim raw in
  let '(pc, rc) := parse_comment_line (q_comment st) line in
  let msgs := match rc with
              | Some (id, TgMessage, t) => update_message (q_msgs st) id (fun m => with_comment m t)
              | Some (id, TgSignal n, t) => update_message (q_msgs st) id (comment_signals n t)
              | _ => q_msgs st
              end in
  let '(pv, rv) := parse_val_line (q_val st) line in
  let msgs := match rv with
              | Some (id, n, t, vals) => update_message msgs id (value_signals n t vals)
              | None => msgs
              end in
  let '(pa, ra) := parse_attribute_line (q_attr st) line in
  let msgs := match ra with
              | Some (id, v) => update_message msgs id (fun m => with_cycle m (uwrap 32 v))
              | None => msgs
              end in
  {| q_msgs := msgs; q_comment := pc; q_val := pv; q_attr := pa |}.

(** ParseOtherInfo, dbcscanner.cpp 159-283, for a fresh DbcScanner *)
Definition parse_other_info (msgs : list message) (ls : list string) : list message :=
  q_msgs (fold_left other_line ls
            {| q_msgs := msgs; q_comment := ""; q_val := ""; q_attr := "" |}).

(** TrimDbcText, dbcscanner.cpp 43-65, for a fresh DbcScanner *)
Definition scan (srt : sorter) (text : string) : res dbclist :=
  let ls := getlines text in
  do d <- parse_message_info srt ls;
  Ok {| d_msgs := parse_other_info (d_msgs d) ls; d_maxdlc := d_maxdlc d;
        d_verhi := d_verhi d; d_verlow := d_verlow d |}.
