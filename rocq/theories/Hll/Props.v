(** C35: the sketch depends only on the set of values added.  C65: the estimate is always a number. *)
From Coq Require Import Arith NArith List Bool Lia.
From Verif.Hll Require Import Model Spec Proofs.
Import ListNotations.
Local Open Scope N_scope.

(** each register is the largest rank of the hashes added whose leading bits select it *)
Theorem C35_registers : forall D (xxh : D -> N) b l, 4 <= b <= 20 ->
  exists s, adds xxh b l = Some s /\ bitcount s = b /\ length (regs s) = N.to_nat (2 ^ b) /\
    forall i v, nth_error (regs s) i = Some v -> largest b (words xxh l) (N.of_nat i) v.
Proof. exact registers. Qed.
Print Assumptions C35_registers.
(** 0x30400000: register 3, then 0000 0100 ...: the first 1 is the 6th bit *)
Example C35_registers_ex : adds (fun d : N => d) 4 [0x30400000; 0x3fffffff; 0x70000000; 0x10400000] =
  Some (Hll 4 [0; 6; 0; 6; 0; 0; 0; 29; 0; 0; 0; 0; 0; 0; 0; 0]).
Proof. vm_compute. reflexivity. Qed.

(** order and repetition are irrelevant: two streams with the same hashes leave the same sketch *)
Theorem C35_same_set : forall D (xxh : D -> N) b l l',
  (forall h, In h (words xxh l) <-> In h (words xxh l')) -> adds xxh b l = adds xxh b l'.
Proof. exact same_set. Qed.
Print Assumptions C35_same_set.
Theorem C35_same_values : forall D (xxh : D -> N) b l l',
  (forall d, In d l <-> In d l') -> adds xxh b l = adds xxh b l'.
Proof. exact same_data. Qed.
Print Assumptions C35_same_values.
Example C35_same_set_ex : forall h, In h (words (fun d : N => d) [1; 2 ^ 32 + 7; 1]) <-> In h (words (fun d : N => d) [7; 1]).
Proof. intros h. cbn. tauto. Qed.
Example C35_same_values_ex : forall d, In d [1; 7; 1; 9] <-> In d [9; 7; 1].
Proof. intros d. cbn. tauto. Qed.

(** adding never decreases a register, and adding a value again changes nothing *)
Theorem C35_never_decreases : forall D (xxh : D -> N) b l d, 4 <= b <= 20 ->
  exists s s', adds xxh b l = Some s /\ adds xxh b (l ++ [d]) = Some s' /\ Forall2 N.le (regs s) (regs s') /\
    (In d l -> s' = s).
Proof. exact never_decreases. Qed.
Print Assumptions C35_never_decreases.
Example C35_never_decreases_ex : adds (fun d : N => d) 4 [0x3fffffff; 0x30400000] = adds (fun d : N => d) 4 [0x3fffffff; 0x30400000; 0x3fffffff].
Proof. vm_compute. reflexivity. Qed.

(** which precisions there are *)
Theorem C35_precisions : forall b, (exists s, alloc b = Some s) <-> 4 <= b <= 20.
Proof. exact alloc_some. Qed.
Print Assumptions C35_precisions.
Example C35_precisions_ex : alloc 3 = None /\ alloc 4 = Some (Hll 4 (repeat 0 16)) /\ alloc 21 = None.
Proof. vm_compute. auto. Qed.

(** Full statement of C65: the size of a sketch is always a number (no division by zero).  It fails for precisions 4 to
    8: ranks above 24 count as 0 in the integer sum. *)
Theorem C65_finite_refuted : ~ (forall D R (float : N -> N -> N -> R) (xxh : D -> N) b l s,
  4 <= b <= 20 -> adds xxh b l = Some s -> size float s <> None).
Proof. exact size_refuted. Qed.
Print Assumptions C65_finite_refuted.
Example C65_finite_refuted_ex : adds (fun d : N => d) 4 all_zero_tails = Some (Hll 4 (repeat 29 16)).
Proof. vm_compute. reflexivity. Qed.

(** exactly when: every register is above 24, which takes a precision of at most 8; nothing else overflows *)
Theorem C65_finite_partial : forall D R (float : N -> N -> N -> R) (xxh : D -> N) b l, 4 <= b <= 20 ->
  exists s, adds xxh b l = Some s /\
  (size float s = None <-> Forall (fun x => 25 <= x) (regs s)) /\ (9 <= b -> size float s <> None).
Proof. exact size_some. Qed.
Print Assumptions C65_finite_partial.
Example C65_finite_partial_ex : option_map (size (fun b z sum => (b, z, sum))) (adds (fun d : N => d) 4 [0x30400000; 0x3fffffff; 0x70000000]) =
  Some (Some (4, 14, 14 * 2 ^ 24 + 2 ^ 18)).
Proof. vm_compute. reflexivity. Qed.

(** what the floating point part of the estimate is given: the precision, the number of zero registers and the sum of
    2^24 divided by 2^rank, rounded down *)
Theorem C65_estimate_input : forall D R (float : N -> N -> N -> R) (xxh : D -> N) b l, 4 <= b <= 20 ->
  exists s, adds xxh b l = Some s /\ forall v, size float s = Some v ->
    v = float b (N.of_nat (length (filter (N.eqb 0) (regs s)))) (total (fun x => 2 ^ 24 / 2 ^ x) (regs s)).
Proof. exact estimate_input. Qed.
Print Assumptions C65_estimate_input.
Example C65_estimate_input_ex : option_map (size (fun b z sum => (b, z, sum))) (adds (fun d : N => d) 5 [0x30400000]) =
  Some (Some (5, 31, 31 * 2 ^ 24 + 2 ^ 19)).
Proof. vm_compute. reflexivity. Qed.
