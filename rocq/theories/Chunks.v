(** The expressions built by PrintSignalExpr as lists of chunks: which byte, which bits of the
    byte, which bits of the value. *)

From Coq Require Import ZArith NArith List String Ascii Bool Lia ZifyBool.
From Verif Require Import Base CSyntax Types Formatter SigPrinter CodecSpec LexLemmas.
Import ListNotations.
Open Scope Z_scope.

Record chunk := { k_byte : Z; k_lo : Z; k_w : Z; k_pos : Z }.

Definition next (o : layout) (bn : Z) : Z := match o with Intel => bn - 1 | Motorola => bn + 1 end.

(** [8 * q + r] bits remain below the current byte *)
Fixpoint tail_chunks (q : nat) (o : layout) (bn r : Z) : list chunk :=
  match q with
  | O => if r =? 0 then [] else [{| k_byte := next o bn; k_lo := 8 - r; k_w := r; k_pos := 0 |}]
  | S q' => {| k_byte := next o bn; k_lo := 0; k_w := 8; k_pos := 8 * Z.of_nat q' + r |}
            :: tail_chunks q' o (next o bn) r
  end.

Definition chunks_at (o : layout) (startb len : Z) : list chunk :=
  let bn := startb / 8 in
  let bbc := startb mod 8 + 1 in
  if len <=? bbc then [{| k_byte := bn; k_lo := bbc - len; k_w := len; k_pos := 0 |}]
  else {| k_byte := bn; k_lo := 0; k_w := bbc; k_pos := len - bbc |}
       :: tail_chunks (Z.to_nat ((len - bbc) / 8)) o bn ((len - bbc) mod 8).

Definition startb (o : layout) (start len : Z) : Z :=
  match o with Intel => start + len - 1 | Motorola => start end.
Definition chunks (o : layout) (start len : Z) : list chunk := chunks_at o (startb o start len) len.

(** ** Positions *)

Ltac Zify.zify_post_hook ::= Z.div_mod_to_equations.
Ltac conj_lia := repeat match goal with |- _ /\ _ => split; [solve [intros; try split; intuition lia]|] end.

(** the payload position of value bit [k] when [s] bits remain below byte [bn] *)
Definition tail_pos (o : layout) (bn s k : Z) : Z :=
  match o with
  | Intel => 8 * bn - s + k
  | Motorola => mirror (8 * (bn + 1) + (s - 1 - k))
  end.

Lemma mirror_byte : forall b j, 0 <= j < 8 -> mirror (8 * b + j) = 8 * b + (7 - j).
Proof. intros. unfold mirror. lia. Qed.

Lemma tail_chunks_spec : forall q o bn r c, 0 <= r < 8 ->
  In c (tail_chunks q o bn r) ->
  0 <= k_lo c /\ 0 < k_w c /\ k_lo c + k_w c <= 8 /\ 0 <= k_pos c /\
  k_pos c + k_w c <= 8 * Z.of_nat q + r /\
  (0 < k_pos c -> k_lo c = 0 /\ k_pos c mod 8 = r) /\
  (k_pos c = 0 -> (8 - k_lo c) mod 8 = r) /\
  forall j, 0 <= j < k_w c ->
    tail_pos o bn (8 * Z.of_nat q + r) (k_pos c + j) = 8 * k_byte c + k_lo c + j.
Proof.
  induction q; intros o bn r c R I.
  - cbn [tail_chunks] in I. destruct (Z.eqb_spec r 0); [contradiction|].
    destruct I as [<-|[]]. cbn [k_lo k_w k_pos k_byte].
    conj_lia. intros j J.
    unfold tail_pos, next. destruct o.
    + lia.
    + replace (8 * (bn + 1) + (8 * Z.of_nat 0 + r - 1 - (0 + j)))
        with (8 * (bn + 1) + (r - 1 - j)) by lia.
      rewrite mirror_byte by lia. lia.
  - cbn [tail_chunks] in I. destruct I as [<-|I].
    + cbn [k_lo k_w k_pos k_byte].
      conj_lia. intros j J.
      unfold tail_pos, next. destruct o.
      * lia.
      * replace (8 * (bn + 1) + (8 * Z.of_nat (S q) + r - 1 - (8 * Z.of_nat q + r + j)))
          with (8 * (bn + 1) + (7 - j)) by lia.
        rewrite mirror_byte by lia. lia.
    + destruct (IHq o (next o bn) r c R I) as (A & B & C & D & E & F & G & H).
      conj_lia. intros j J. rewrite <- H by auto.
      unfold tail_pos, next. destruct o; [lia|]. f_equal. lia.
Qed.

Lemma tail_chunks_cover : forall q o bn r k, 0 <= r < 8 -> 0 <= k < 8 * Z.of_nat q + r ->
  exists c, In c (tail_chunks q o bn r) /\ k_pos c <= k < k_pos c + k_w c.
Proof.
  induction q; intros o bn r k R K.
  - cbn [tail_chunks]. destruct (Z.eqb_spec r 0); [lia|]. eexists. split; [left; reflexivity|].
    cbn [k_pos k_w]. lia.
  - destruct (Z_lt_le_dec k (8 * Z.of_nat q + r)).
    + destruct (IHq o (next o bn) r k R ltac:(lia)) as (c & I & J).
      exists c. split; [right; auto|auto].
    + eexists. split; [left; reflexivity|]. cbn [k_pos k_w]. lia.
Qed.

(** residue: how many bits the least significant chunk takes from the top of its byte *)
Definition residue (o : layout) (start len : Z) : Z := (8 - sig_pos o start len 0 mod 8) mod 8.

Lemma chunks_spec : forall o start len c, 0 < len -> 0 <= start ->
  In c (chunks o start len) ->
  0 <= k_lo c /\ 0 < k_w c /\ k_lo c + k_w c <= 8 /\ 0 <= k_pos c /\ k_pos c + k_w c <= len /\
  (0 < k_pos c -> k_lo c = 0 /\ k_pos c mod 8 = residue o start len) /\
  forall j, 0 <= j < k_w c ->
    sig_pos o start len (k_pos c + j) = 8 * k_byte c + k_lo c + j.
Proof.
  intros o start len c L S I. unfold chunks, chunks_at in I.
  set (sb := startb o start len) in *.
  assert (SB : 0 <= sb) by (subst sb; unfold startb; destruct o; lia).
  set (bn := sb / 8) in *. set (bbc := sb mod 8 + 1) in *.
  assert (B : 1 <= bbc <= 8) by lia.
  assert (HB : sb = 8 * bn + bbc - 1) by lia.
  destruct (Z.leb_spec len bbc).
  - destruct I as [<-|[]]. cbn [k_lo k_w k_pos k_byte].
    conj_lia. intros j J.
    unfold sig_pos. subst sb. destruct o; unfold startb in *.
    + lia.
    + replace (mirror start) with (8 * bn + (8 - bbc)).
      2:{ rewrite HB. replace (8 * bn + bbc - 1) with (8 * bn + (bbc - 1)) by lia.
          rewrite mirror_byte by lia. lia. }
      replace (8 * bn + (8 - bbc) + (len - 1 - (0 + j))) with (8 * bn + (7 - bbc + len - j)) by lia.
      rewrite mirror_byte by lia. lia.
  - set (s := len - bbc) in *. set (q := Z.to_nat (s / 8)) in *. set (r := s mod 8) in *.
    assert (Hs : s = 8 * Z.of_nat q + r) by lia.
    assert (R : 0 <= r < 8) by lia.
    (* positions below the first chunk *)
    assert (T : forall k, 0 <= k < s -> sig_pos o start len k = tail_pos o bn s k).
    { intros k K. unfold sig_pos, tail_pos. subst sb. destruct o; unfold startb in *.
      - lia.
      - replace (mirror start) with (8 * bn + (8 - bbc)).
        2:{ rewrite HB. replace (8 * bn + bbc - 1) with (8 * bn + (bbc - 1)) by lia.
            rewrite mirror_byte by lia. lia. }
        f_equal. lia. }
    assert (RES : r = residue o start len).
    { unfold residue. rewrite T by lia.
      destruct (tail_chunks_cover q o bn r 0 R ltac:(lia)) as (c0 & I0 & J0).
      destruct (tail_chunks_spec q o bn r c0 R I0) as (A & B0 & C & D & E & F & G & H0).
      assert (P0 : k_pos c0 = 0) by lia.
      specialize (H0 0 ltac:(lia)). rewrite P0 in H0. rewrite Hs.
      replace (0 + 0) with 0 in H0 by lia. rewrite H0. specialize (G P0). lia. }
    destruct I as [<-|I].
    + cbn [k_lo k_w k_pos k_byte].
      conj_lia. intros j J.
      unfold sig_pos. subst sb. destruct o; unfold startb in *.
      * lia.
      * replace (mirror start) with (8 * bn + (8 - bbc)).
        2:{ rewrite HB. replace (8 * bn + bbc - 1) with (8 * bn + (bbc - 1)) by lia.
            rewrite mirror_byte by lia. lia. }
        replace (8 * bn + (8 - bbc) + (len - 1 - (s + j))) with (8 * bn + (7 - j)) by (subst s; lia).
        rewrite mirror_byte by lia. lia.
    + destruct (tail_chunks_spec q o bn r c R I) as (A & B0 & C & D & E & F & G & H0).
      conj_lia. intros j J. rewrite <- H0 by auto. rewrite <- Hs. apply T. lia.
Qed.

Lemma chunks_cover : forall o start len k, 0 <= start -> 0 <= k < len ->
  exists c, In c (chunks o start len) /\ k_pos c <= k < k_pos c + k_w c.
Proof.
  intros o start len k S K. unfold chunks, chunks_at.
  set (sb := startb o start len).
  assert (SB : 0 <= sb) by (subst sb; unfold startb; destruct o; lia).
  set (bn := sb / 8). set (bbc := sb mod 8 + 1).
  destruct (Z.leb_spec len bbc).
  - eexists. split; [left; reflexivity|]. cbn [k_pos k_w]. lia.
  - destruct (Z_lt_le_dec k (len - bbc)).
    + destruct (tail_chunks_cover (Z.to_nat ((len - bbc) / 8)) o bn ((len - bbc) mod 8) k)
        as (c & I & J); [lia | lia |].
      exists c. split; [right; auto|auto].
    + eexists. split; [left; reflexivity|]. cbn [k_pos k_w]. lia.
Qed.

(** bytes of the chunks of a signal inside the frame *)
Lemma chunks_bytes : forall o start len dlc c, 0 < len -> 0 <= start ->
  in_frame o start len dlc -> In c (chunks o start len) -> 0 <= k_byte c < dlc.
Proof.
  intros o start len dlc c L S F I.
  destruct (chunks_spec o start len c L S I) as (A & B & C & D & E & G & H).
  specialize (H 0 ltac:(lia)). specialize (F (k_pos c + 0) ltac:(lia)). lia.
Qed.

(** ** Texts *)

Definition num (z : Z) : string := dec (Z.to_N z).

Definition utext (c : chunk) : string :=
  (if (k_pos c =? 0)%Z then
     if (k_lo c =? 0)%Z then "(_d[" ++ num (k_byte c) ++ "] & (" ++ msk (k_w c) ++ "))"
     else "((_d[" ++ num (k_byte c) ++ "] >> " ++ num (k_lo c) ++ "U) & (" ++ msk (k_w c) ++ "))"
   else
     "(" ++ (if (k_pos c >? 31)%Z then "(uint64_t)" else "") ++ "(_d[" ++ num (k_byte c) ++ "] & ("
         ++ msk (k_w c) ++ ")) << " ++ num (k_pos c) ++ "U)")%string.

Definition ptext (nm : string) (c : chunk) : string :=
  (if (k_pos c =? 0)%Z then
     if (k_lo c =? 0)%Z then "(_m->" ++ nm ++ " & (" ++ msk (k_w c) ++ "))"
     else "((_m->" ++ nm ++ " & (" ++ msk (k_w c) ++ ")) << " ++ num (k_lo c) ++ "U)"
   else "((_m->" ++ nm ++ " >> " ++ num (k_pos c) ++ "U) & (" ++ msk (k_w c) ++ "))")%string.

Fixpoint more (l : list chunk) : string :=
  match l with
  | [] => ""
  | c :: r => (" | " ++ utext c ++ more r)%string
  end.

Definition ujoin (l : list chunk) : string :=
  match l with
  | [] => ""
  | c :: r => (utext c ++ more r)%string
  end.

(** adding a chunk to the pack lines *)
Definition put_chunk (nm : string) (tb : list string) (c : chunk) : list string :=
  set_nth tb (Z.to_nat (k_byte c))
          (append_to_byte_line (nth (Z.to_nat (k_byte c)) tb ""%string) (ptext nm c)).
Definition put_chunks (nm : string) (tb : list string) (l : list chunk) : list string :=
  fold_left (put_chunk nm) l tb.

Lemma decZ_num : forall z, 0 <= z -> decZ z = num z.
Proof. intros. unfold decZ, num. now replace (z <? 0) with false by lia. Qed.

Lemma num_len : forall z, 0 <= z < 1000 -> (String.length (num z) <= 3)%nat.
Proof.
  assert (H : forallb (fun n => (String.length (dec (N.of_nat n)) <=? 3)%nat) (seq 0 1000) = true)
    by (vm_compute; reflexivity).
  intros z Hz. rewrite forallb_forall in H. unfold num.
  replace (Z.to_N z) with (N.of_nat (Z.to_nat z)) by lia.
  apply Nat.leb_le. apply H. apply in_seq. lia.
Qed.

Lemma msk_len : forall w, (String.length (msk w) <= 5)%nat.
Proof.
  intros. unfold msk. destruct (Z.to_nat w) as [|[|[|[|[|[|[|[|[|n]]]]]]]]]; simpl; try lia.
  destruct n; simpl; lia.
Qed.

Lemma set_nth_length : forall A (l : list A) n a, (n < List.length l)%nat ->
  List.length (set_nth l n a) = List.length l.
Proof.
  intros. unfold set_nth. rewrite app_length, firstn_length. cbn [List.length]. rewrite skipn_length. lia.
Qed.

Lemma set_nth_same : forall A (l : list A) n a d, (n < List.length l)%nat ->
  nth n (set_nth l n a) d = a.
Proof.
  intros. unfold set_nth. rewrite app_nth2; rewrite firstn_length; [|lia].
  replace (n - Nat.min n (List.length l))%nat with 0%nat by lia. reflexivity.
Qed.

Lemma nth_skipn' : forall A (l : list A) n i d, nth i (skipn n l) d = nth (n + i) l d.
Proof.
  induction l; intros n i d.
  - rewrite skipn_nil. destruct i, (n + 0)%nat, n; simpl; auto; destruct (_ + _)%nat; auto.
  - destruct n; simpl; auto.
Qed.

Lemma set_nth_other : forall A (l : list A) n i a d, (n < List.length l)%nat -> i <> n ->
  nth i (set_nth l n a) d = nth i l d.
Proof.
  intros A l n i a d H N. unfold set_nth.
  destruct (Nat.lt_ge_cases i n).
  - rewrite app_nth1 by (rewrite firstn_length; lia).
    rewrite <- (firstn_skipn n l) at 2. rewrite app_nth1 by (rewrite firstn_length; lia).
    reflexivity.
  - rewrite app_nth2; rewrite firstn_length; [|lia].
    replace (i - Nat.min n (List.length l))%nat with (S (i - n - 1)) by lia.
    cbn [nth]. rewrite nth_skipn'. f_equal. lia.
Qed.

Lemma put_chunk_length : forall nm tb c, 0 <= k_byte c < Z.of_nat (List.length tb) ->
  List.length (put_chunk nm tb c) = List.length tb.
Proof. intros. unfold put_chunk. apply set_nth_length. lia. Qed.

Lemma add_byte_ok : forall tb bn t, 0 <= bn < Z.of_nat (List.length tb) ->
  add_byte tb bn t
  = Ok (set_nth tb (Z.to_nat bn) (append_to_byte_line (nth (Z.to_nat bn) tb ""%string) t)).
Proof.
  intros. unfold add_byte. replace (bn <? 0) with false by lia.
  rewrite nth_error_nth' with (d := ""%string) by lia. reflexivity.
Qed.

Lemma shift_byte_next : forall sg bn, 0 <= bn < 1000 -> 0 <= next (s_order sg) bn < 1000 ->
  shift_byte sg bn = next (s_order sg) bn.
Proof.
  intros sg bn H H'. unfold shift_byte.
  assert (E : swrap 32 bn = bn).
  { unfold swrap. change (32 - 1) with 31. change (2 ^ 32) with 4294967296.
    change (2 ^ 31) with 2147483648. rewrite Z.mod_small by lia.
    now replace (bn <? 2147483648) with true by lia. }
  unfold next in *. destruct (s_order sg); rewrite E; unfold uwrap;
    change (2 ^ 32) with 4294967296; apply Z.mod_small; lia.
Qed.

Lemma pd32_num : forall z, 0 <= z < 1000 -> pd32 z = num z.
Proof.
  intros. unfold pd32, swrap. change (32 - 1) with 31. change (2 ^ 32) with 4294967296.
  change (2 ^ 31) with 2147483648. rewrite Z.mod_small by lia.
  replace (z <? 2147483648) with true by lia. apply decZ_num. lia.
Qed.

Ltac geb := lia.

(** lengths of the texts *)
Ltac len_tac :=
  repeat match goal with |- context [if ?b then _ else _] => destruct b end;
  repeat rewrite app_len; cbn [String.length];
  repeat match goal with
         | |- context [String.length (num ?z)] =>
             let H := fresh in
             assert (H : (String.length (num z) <= 3)%nat) by (apply num_len; lia);
             revert H; generalize (String.length (num z)); intros
         | |- context [String.length (msk ?z)] =>
             let H := fresh in
             pose proof (msk_len z) as H; revert H; generalize (String.length (msk z)); intros
         end; try lia.

Lemma wb_short : forall s, (String.length s < 2048)%nat -> wb s = s.
Proof. intros. apply cut_short. exact H. Qed.

Lemma chunk_loop_spec : forall q fuel sg bn r acc tb,
  (q < fuel)%nat -> 0 <= r < 8 -> 0 <= bn < Z.of_nat (List.length tb) ->
  8 * Z.of_nat q + r < 300 ->
  (List.length tb <= 64)%nat -> (String.length (s_name sg) <= 1000)%nat ->
  (forall c, In c (tail_chunks q (s_order sg) bn r) ->
     0 <= k_byte c < Z.of_nat (List.length tb)) ->
  exists bn' cs,
    tail_chunks q (s_order sg) bn r
      = (cs ++ tail_chunks 0 (s_order sg) bn' r)%list /\
    0 <= bn' < Z.of_nat (List.length tb) /\
    chunk_loop fuel sg (8 * Z.of_nat q + r) bn acc tb
      = Ok (LoopDone r bn' (acc ++ more cs)%string (put_chunks (s_name sg) tb cs)).
Proof.
  induction q; intros fuel sg bn r acc tb F R B T Ltb Ln IN.
  - exists bn, []. split; [reflexivity|]. split; [auto|].
    destruct fuel as [|f]; [lia|]. cbn [chunk_loop].
    replace (8 * Z.of_nat 0 + r - 8 >=? 0) with false by geb.
    cbn [more put_chunks fold_left]. rewrite app_nil_r.
    replace (8 * Z.of_nat 0 + r) with r by lia. reflexivity.
  - destruct fuel as [|f]; [lia|].
    assert (IN0 := IN).
    cbn [tail_chunks] in IN0.
    set (c0 := {| k_byte := next (s_order sg) bn; k_lo := 0; k_w := 8;
                  k_pos := 8 * Z.of_nat q + r |}) in *.
    assert (BN : 0 <= next (s_order sg) bn < Z.of_nat (List.length tb)).
    { apply (IN0 c0). now left. }
    assert (Lput : List.length (put_chunk (s_name sg) tb c0) = List.length tb).
    { apply put_chunk_length. exact BN. }
    specialize (IHq f sg (next (s_order sg) bn) r (acc ++ (" | " ++ utext c0))%string
                    (put_chunk (s_name sg) tb c0)).
    rewrite Lput in IHq.
    destruct (IHq ltac:(lia) R BN ltac:(lia) Ltb Ln (fun c I => IN0 c (or_intror I)))
      as (bn' & cs & E1 & E2 & E3).
    exists bn', (c0 :: cs). split; [|split].
    + cbn [tail_chunks]. fold c0. rewrite E1. reflexivity.
    + auto.
    + cbn [chunk_loop].
      replace (8 * Z.of_nat (S q) + r - 8 >=? 0) with true by geb.
      replace (8 * Z.of_nat (S q) + r - 8) with (8 * Z.of_nat q + r) by lia.
      rewrite shift_byte_next by lia.
      replace (Z.of_nat (List.length tb) <? next (s_order sg) bn) with false by lia.
      cbn [more put_chunks fold_left].
      fold (put_chunks (s_name sg) (put_chunk (s_name sg) tb c0) cs).
      rewrite <- !app_assoc in *.
      rewrite <- E3. clear E3.
      destruct (Z.eqb_spec (8 * Z.of_nat q + r) 0) as [Z0|NZ].
      * rewrite pd32_num by lia.
        rewrite !wb_short by len_tac.
        rewrite add_byte_ok by auto. cbn [bind].
        unfold put_chunk, ptext, utext. subst c0. cbn [k_pos k_lo k_w k_byte].
        rewrite Z0. cbn [Z.eqb]. rewrite <- !app_assoc. reflexivity.
      * rewrite pd32_num, decZ_num by lia.
        rewrite !wb_short by len_tac.
        rewrite add_byte_ok by auto. cbn [bind].
        unfold put_chunk, ptext, utext. subst c0. cbn [k_pos k_lo k_w k_byte].
        rewrite (proj2 (Z.eqb_neq _ _) NZ). rewrite <- !app_assoc. reflexivity.
Qed.

Lemma put_chunks_length : forall cs nm tb,
  (forall c, In c cs -> 0 <= k_byte c < Z.of_nat (List.length tb)) ->
  List.length (put_chunks nm tb cs) = List.length tb.
Proof.
  unfold put_chunks. induction cs; intros nm tb H; simpl; auto.
  assert (E : List.length (put_chunk nm tb a) = List.length tb)
    by (apply put_chunk_length; apply H; now left).
  rewrite IHcs.
  - exact E.
  - intros c I. rewrite E. apply H. now right.
Qed.

Lemma put_chunks_app : forall a b nm tb,
  put_chunks nm tb (a ++ b) = put_chunks nm (put_chunks nm tb a) b.
Proof. intros. unfold put_chunks. apply fold_left_app. Qed.

Lemma more_app : forall a b, more (a ++ b) = (more a ++ more b)%string.
Proof.
  induction a; intros; simpl; auto. rewrite IHa, !app_assoc. reflexivity.
Qed.

(** the descriptor as the parser produces it: the length is a uint8_t, the start bit a uint32_t *)
Definition sane (sg : signal) : Prop :=
  1 <= s_len sg <= 64 /\ 0 <= s_start sg /\ (String.length (s_name sg) <= 1000)%nat.

Lemma start_bit_pos_eq : forall sg dlc, sane sg -> dlc <= 64 ->
  in_frame (s_order sg) (s_start sg) (s_len sg) dlc ->
  start_bit_pos sg = startb (s_order sg) (s_start sg) (s_len sg)
  /\ 0 <= startb (s_order sg) (s_start sg) (s_len sg) < 8 * dlc.
Proof.
  intros sg dlc (L & S & N) D F.
  assert (B : 0 <= startb (s_order sg) (s_start sg) (s_len sg) < 8 * dlc).
  { pose proof (F (s_len sg - 1) ltac:(lia)) as P. unfold startb, sig_pos in *.
    revert P. destruct (s_order sg); intros P; [lia|]. unfold mirror in P. lia. }
  split; auto.
  unfold start_bit_pos, startb in *. unfold highest_bit.
  revert B. destruct (s_order sg); intros B; unfold uwrap; change (2 ^ 32) with 4294967296; change (2 ^ 16) with 65536.
  - replace (s_start sg + (s_len sg - 1)) with (s_start sg + s_len sg - 1) by lia.
    rewrite (Z.mod_small _ 4294967296) by lia. rewrite (Z.mod_small _ 65536) by lia.
    replace (64 * 8 - 1 <? s_start sg + s_len sg - 1) with false by lia. reflexivity.
  - rewrite Z.mod_small by lia.
    replace (64 * 8 - 1 <? s_start sg) with false by lia. reflexivity.
Qed.

Theorem print_signal_expr_chunks : forall sg tb,
  sane sg -> (List.length tb <= 64)%nat ->
  in_frame (s_order sg) (s_start sg) (s_len sg) (Z.of_nat (List.length tb)) ->
  let cs := chunks (s_order sg) (s_start sg) (s_len sg) in
  print_signal_expr sg tb = Ok (ujoin cs, put_chunks (s_name sg) tb cs).
Proof.
  intros sg tb Sane Ltb F cs.
  assert (L : 1 <= s_len sg <= 64) by apply Sane.
  assert (S : 0 <= s_start sg) by apply Sane.
  assert (N : (String.length (s_name sg) <= 1000)%nat) by apply Sane.
  destruct (start_bit_pos_eq sg (Z.of_nat (List.length tb)) Sane ltac:(lia) F) as [E B].
  assert (BY : forall c, In c cs -> 0 <= k_byte c < Z.of_nat (List.length tb))
    by (intros c I; eapply chunks_bytes; eauto; lia).
  subst cs. unfold chunks in *.
  unfold print_signal_expr. rewrite E. set (sb := startb _ _ _) in *.
  destruct tb as [|t0 tb0] eqn:TB; [simpl in B; lia|]. rewrite <- TB in *. clear t0 tb0 TB.
  set (bn := sb / 8) in *.
  replace (Z.of_nat (List.length tb) <=? bn) with false by lia.
  unfold chunks_at in *. fold bn in BY |- *. set (bbc := sb mod 8 + 1) in *.
  assert (Hbbc : 1 <= bbc <= 8) by lia.
  destruct (Z.leb_spec (s_len sg) bbc) as [Le|Gt].
  - assert (B0 : 0 <= bn < Z.of_nat (List.length tb)) by lia.
    cbn [ujoin more put_chunks fold_left].
    unfold put_chunk, ptext, utext. cbn [k_pos k_lo k_w k_byte]. cbn [Z.eqb].
    rewrite app_nil_r.
    destruct (bbc >? s_len sg) eqn:G.
    + apply Z.gtb_lt in G.
      rewrite pd32_num, decZ_num by lia.
      rewrite !wb_short by len_tac.
      rewrite add_byte_ok by auto. cbn [bind].
      replace (bbc - s_len sg =? 0) with false by lia. reflexivity.
    + rewrite Z.gtb_ltb in G. apply Z.ltb_ge in G.
      replace (bbc =? s_len sg) with true by lia.
      rewrite pd32_num by lia.
      rewrite !wb_short by len_tac.
      rewrite add_byte_ok by auto. cbn [bind].
      replace (bbc - s_len sg =? 0) with true by lia. reflexivity.
  - replace (bbc >? s_len sg) with false by geb.
    replace (bbc =? s_len sg) with false by lia.
    assert (B0 : 0 <= bn < Z.of_nat (List.length tb)) by lia.
    set (s := s_len sg - bbc) in *.
    set (c0 := {| k_byte := bn; k_lo := 0; k_w := bbc; k_pos := s |}) in *.
    assert (T0 : wb ("(" ++ (if (s >? 31)%Z then "(uint64_t)" else "") ++ "(_d[" ++ pd32 bn
                       ++ "] & (" ++ msk bbc ++ ")) << " ++ decZ s ++ "U)")%string = utext c0).
    { rewrite pd32_num, decZ_num by lia. rewrite wb_short by len_tac.
      unfold utext. subst c0. cbn [k_pos k_lo k_w k_byte].
      replace (s =? 0) with false by lia. reflexivity. }
    rewrite T0.
    assert (T1 : wb ("((_m->" ++ s_name sg ++ " >> " ++ decZ s ++ "U) & (" ++ msk bbc ++ "))")%string
                 = ptext (s_name sg) c0).
    { rewrite decZ_num by lia. rewrite wb_short by len_tac.
      unfold ptext. subst c0. cbn [k_pos k_lo k_w k_byte].
      replace (s =? 0) with false by lia. reflexivity. }
    rewrite T1. rewrite add_byte_ok by auto. cbn [bind].
    change (set_nth tb (Z.to_nat bn)
              (append_to_byte_line (nth (Z.to_nat bn) tb ""%string) (ptext (s_name sg) c0)))
      with (put_chunk (s_name sg) tb c0).
    assert (Lp : List.length (put_chunk (s_name sg) tb c0) = List.length tb)
      by (apply put_chunk_length; exact B0).
    set (q := Z.to_nat (s / 8)) in *. set (r := s mod 8) in *.
    assert (Hs : s = 8 * Z.of_nat q + r) by lia.
    destruct (chunk_loop_spec q 40 sg bn r (utext c0) (put_chunk (s_name sg) tb c0))
      as (bn' & cs & E1 & E2 & E3); try lia.
    { intros c I. rewrite Lp. apply BY. right. exact I. }
    rewrite <- Hs in E3. rewrite E3. cbn [bind].
    rewrite E1 in BY |- *. cbn [tail_chunks] in *.
    destruct (Z.eqb_spec r 0) as [R0|R0].
    + replace (r >? 0) with false by geb.
      rewrite List.app_nil_r in *. reflexivity.
    + replace (r >? 0) with true by geb.
      set (c1 := {| k_byte := next (s_order sg) bn'; k_lo := 8 - r; k_w := r; k_pos := 0 |}) in *.
      rewrite Lp in E2.
      assert (BN : 0 <= next (s_order sg) bn' < Z.of_nat (List.length tb)).
      { apply (BY c1). right. apply in_or_app. right. now left. }
      rewrite shift_byte_next by lia.
      rewrite pd32_num, decZ_num by lia.
      rewrite !wb_short by len_tac.
      rewrite add_byte_ok.
      2:{ rewrite put_chunks_length; rewrite Lp; auto. intros c I. apply BY. right.
          apply in_or_app. now left. }
      cbn [bind ujoin]. rewrite more_app. cbn [more].
      cbn [put_chunks fold_left]. rewrite fold_left_app. cbn [fold_left].
      unfold put_chunk at 3, ptext, utext at 3. subst c1. cbn [k_pos k_lo k_w k_byte Z.eqb].
      replace (8 - r =? 0) with false by lia.
      rewrite !app_assoc. cbn [String.append]. rewrite ?app_nil_r. reflexivity.
Qed.
