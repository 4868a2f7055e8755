(** What a DBC file says about the place of a signal in a frame, independent of the generator.

    Bits of a payload are numbered 8 * byte + bit.  An Intel signal occupies ascending bit
    numbers from its start bit.  A Motorola signal is written with its most significant bit
    first: it starts at the start bit, runs down to bit 0 of the byte and continues at bit 7 of
    the next byte. *)

From Coq Require Import ZArith List Bool.
From Verif Require Import Types.
Import ListNotations.
Open Scope Z_scope.

(** bit numbers in reading order: mirrors the bits inside each byte; its own inverse *)
Definition mirror (p : Z) : Z := 8 * (p / 8) + (7 - p mod 8).

(** payload bit that carries bit [k] of a signal's value *)
Definition sig_pos (o : layout) (start len k : Z) : Z :=
  match o with
  | Intel => start + k
  | Motorola => mirror (mirror start + (len - 1 - k))
  end.

Definition payload_bit (d : list Z) (p : Z) : bool :=
  Z.testbit (nth (Z.to_nat (p / 8)) d 0) (p mod 8).

(** number with the given bits *)
Fixpoint bits_val (f : Z -> bool) (n : nat) : Z :=
  match n with
  | O => 0
  | S n' => bits_val f n' + (if f (Z.of_nat n') then 2 ^ Z.of_nat n' else 0)
  end.

(** the unsigned number found in a payload *)
Definition raw_value (o : layout) (start len : Z) (d : list Z) : Z :=
  bits_val (fun k => payload_bit d (sig_pos o start len k)) (Z.to_nat len).

(** two's complement reading of [len] bits *)
Definition twos (len v : Z) : Z := if v <? 2 ^ (len - 1) then v else v - 2 ^ len.

(** the value of a signal found in a payload *)
Definition decoded (signed : bool) (o : layout) (start len : Z) (d : list Z) : Z :=
  if signed then twos len (raw_value o start len d) else raw_value o start len d.

(** all bits of the signal lie in the first [dlc] bytes *)
Definition in_frame (o : layout) (start len dlc : Z) : Prop :=
  forall k, 0 <= k < len -> 0 <= sig_pos o start len k < 8 * dlc.

(** the payload bits of a signal *)
Definition covers (o : layout) (start len p : Z) : Prop :=
  exists k, 0 <= k < len /\ sig_pos o start len k = p.

(** values a signal can carry *)
Definition carries (signed : bool) (len v : Z) : Prop :=
  if signed then - 2 ^ (len - 1) <= v < 2 ^ (len - 1) else 0 <= v < 2 ^ len.

Definition is_byte (b : Z) : Prop := 0 <= b < 256.
