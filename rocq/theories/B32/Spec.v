(** Independent specification of base32 (RFC 4648 section 6): the bit string of
    the input is cut in 5-bit groups (the last one filled with zero bits), each
    group is an index in the alphabet, and the text is filled with '=' to a
    multiple of eight characters. *)
From Coq Require Import Arith NArith List.
From Verif.Common Require Import Bits.
Import ListNotations.
Open Scope N_scope.

Definition is_byte (x : N) : Prop := x < 256.
Definition bytes (l : list N) : Prop := Forall is_byte l.

(** "ABCDEFGHIJKLMNOPQRSTUVWXYZ234567" *)
Definition letter (v : N) : N := if v <? 26 then 65 + v else 50 + (v - 26).

(** cut a bit string in groups of 5, filling the last with zeros; [fuel] is at
    least the number of bits. *)
Fixpoint groups5 (fuel : nat) (l : list bool) : list (list bool) :=
  match fuel, l with
  | _, [] => []
  | O, _ => []
  | S f, _ => firstn 5 (l ++ repeat false 4) :: groups5 f (skipn 5 l)
  end.

Definition bit_string (l : list N) : list bool := flat_map byte_bits l.

Definition rfc4648_base32 (l : list N) : list N :=
  let bits := bit_string l in
  let chars := map (fun g => letter (bits_val g)) (groups5 (length bits) bits) in
  chars ++ repeat 61 ((8 - length chars mod 8) mod 8)%nat.

(** Characters the decoder ignores: '-' and C-locale white space. *)
Definition ignorable (c : N) : bool :=
  (c =? 45) || (c =? 32) || ((9 <=? c) && (c <=? 13)).

(** Two characters that are equal or are the two cases of one ASCII letter. *)
Definition same_letter (a b : N) : Prop :=
  a = b \/ (65 <= a <= 90 /\ b = a + 32) \/ (65 <= b <= 90 /\ a = b + 32).
