(** Property theorems for C12, C45 and C46 (string buffers and bounded copies). *)
From Coq Require Import Arith NArith List Lia.
From Verif.Str Require Import Model Spec Proofs.
Import ListNotations.

Definition ex_ops : list (list N) := [[97;98;99;100;101]; [102;103;104]; [105;106;107;108]]%N.

(** C12: prepending never faults and the visible bytes are the concatenation, last first,
    followed by a terminator. *)
Theorem C12_prepend_is_concatenation : forall n ops, (3 * N.of_nat (length (concat ops)) + 1 < 2 ^ 31)%N ->
  exists b, prepend_all (prepend_alloc n) ops = Some b /\
    firstn (prepend_strlen b) (skipn (pstr b) (pmem b)) = concat (rev ops) /\
    nth_error (skipn (pstr b) (pmem b)) (prepend_strlen b) = Some 0%N.
Proof. exact prepend_correct. Qed.
Print Assumptions C12_prepend_is_concatenation.

Example C12_prepend_is_concatenation_ex :
  (3 * N.of_nat (length (concat ex_ops)) + 1 < 2 ^ 31)%N /\
  match prepend_all (prepend_alloc 8) ex_ops with
  | Some b => plen b = 19 /\ pstr b = 7 /\ skipn 7 (pmem b) = [105;106;107;108;102;103;104;97;98;99;100;101;0]%N
  | None => False
  end.
Proof. split; [cbn; lia|vm_compute; auto]. Qed.

(** C12: appending never faults and the content is the concatenation in order. *)
Theorem C12_append_is_concatenation : forall n ops, (3 * N.of_nat (length (concat ops)) + 1 < 2 ^ 31)%N ->
  exists b, append_all (append_alloc n) ops = Some b /\
    str_buff_len b = length (concat ops) /\ firstn (str_buff_len b) (amem b) = concat ops.
Proof. exact append_correct. Qed.
Print Assumptions C12_append_is_concatenation.

Example C12_append_is_concatenation_ex :
  match append_all (append_alloc 8) ex_ops with
  | Some b => alen b = 19 /\ aend b = 12
  | None => False
  end.
Proof. vm_compute; auto. Qed.

(** C45 as a user expects it does not hold: eight bytes in a fresh buffer leave no room for
    the terminator. *)
Theorem C45_to_string_terminated_refuted : exists ops b,
  append_all (append_alloc 8) ops = Some b /\ ~ In 0%N (concat ops) /\ ~ holds (to_string b) (concat ops) /\
  ~ In 0%N (to_string b).
Proof.
  exists [[97;98;99;100;101]; [102;103;104]]%N. eexists. split; [vm_compute; reflexivity|].
  split; [vm_compute; intuition discriminate|]. split; [|vm_compute; intuition discriminate].
  intros [_ [r E]]. apply (f_equal (@length N)) in E. rewrite app_length in E. cbn in E. lia.
Qed.
Print Assumptions C45_to_string_terminated_refuted.

(** C45, exactly: the returned memory holds the C string iff the content does not fill it. *)
Theorem C45_to_string_terminated_iff_partial : forall n ops b, append_all (append_alloc n) ops = Some b ->
  (3 * N.of_nat (length (concat ops)) + 1 < 2 ^ 31)%N -> ~ In 0%N (concat ops) ->
  (holds (to_string b) (concat ops) <-> length (concat ops) < alen b).
Proof. exact append_terminated. Qed.
Print Assumptions C45_to_string_terminated_iff_partial.

Example C45_to_string_terminated_iff_partial_ex :
  match append_all (append_alloc 8) ex_ops with
  | Some b => length (concat ex_ops) < alen b /\ to_string b = (concat ex_ops ++ repeat 0%N 7)
  | None => False
  end.
Proof. vm_compute. split; [lia|reflexivity]. Qed.

(** C45: when it does fill it there is no terminator anywhere in the allocation. *)
Theorem C45_to_string_unterminated_partial : forall n ops b, append_all (append_alloc n) ops = Some b ->
  (3 * N.of_nat (length (concat ops)) + 1 < 2 ^ 31)%N -> ~ In 0%N (concat ops) ->
  length (concat ops) = alen b -> ~ In 0%N (to_string b).
Proof. exact append_unterminated. Qed.
Print Assumptions C45_to_string_unterminated_partial.

Example C45_to_string_unterminated_partial_ex :
  match append_all (append_alloc 8) [[97;98;99;100]; [101;102;103;104]]%N with
  | Some b => alen b = 8
  | None => False
  end.
Proof. vm_compute. reflexivity. Qed.

(** C46: strlcpy with room for at least the terminator. *)
Theorem C46_strlcpy : forall dst src size, 0 < size <= length dst -> ~ In 0%N src ->
  exists dst', strlcpy dst src size = Some (dst', length src) /\ length dst' = length dst /\
    holds dst' (firstn (size - 1) src) /\ skipn size dst' = skipn size dst.
Proof. exact strlcpy_ok. Qed.
Print Assumptions C46_strlcpy.

Example C46_strlcpy_ex : strlcpy [9;9;9;9;9]%N [97;98;99;100]%N 3 = Some ([97;98;0;9;9]%N, 4).
Proof. reflexivity. Qed.

(** C46 fails for size 0: a byte is stored although none may be. *)
Theorem C46_strlcpy_size0_refuted : exists dst src dst' r, strlcpy dst src 0 = Some (dst', r) /\ dst' <> dst.
Proof. exists [9%N], [97%N]. eexists. eexists. split; [reflexivity|discriminate]. Qed.
Print Assumptions C46_strlcpy_size0_refuted.

(** C46: strlcat into a destination with room. *)
Theorem C46_strlcat : forall dst d src size, holds dst d -> ~ In 0%N src -> length d < size <= length dst ->
  exists dst', strlcat dst src size = Some (dst', length d + length src) /\ length dst' = length dst /\
    holds dst' (firstn (size - 1) (d ++ src)) /\ skipn size dst' = skipn size dst.
Proof. exact strlcat_fits. Qed.
Print Assumptions C46_strlcat.

Example C46_strlcat_ex : holds [97;0;9;9;9]%N [97]%N /\ strlcat [97;0;9;9;9]%N [98;99;100]%N 4 = Some ([97;98;99;0;9]%N, 4).
Proof. split; [|reflexivity]. split; [cbn; intuition discriminate|]. exists [9;9;9]%N. reflexivity. Qed.

(** C46: strlcat into a destination that is already full changes nothing. *)
Theorem C46_strlcat_full : forall dst d src size, holds dst d -> size <= length d ->
  strlcat dst src size = Some (dst, length d + length src).
Proof. exact strlcat_full. Qed.
Print Assumptions C46_strlcat_full.

Example C46_strlcat_full_ex : strlcat [97;98;0]%N [99]%N 2 = Some ([97;98;0]%N, 3).
Proof. reflexivity. Qed.

(** C46: strndup copies the first min(len, strlen) bytes, reading no further. *)
Theorem C46_strndup : forall src len, len <= length src \/ In 0%N src ->
  exists s, strndup src len = Some (s ++ [0%N]) /\ holds (s ++ [0%N]) s /\
    length s <= len /\ s = firstn (length s) src /\ (length s < len -> nth_error src (length s) = Some 0%N).
Proof. exact strndup_ok. Qed.
Print Assumptions C46_strndup.

Example C46_strndup_ex : strndup [97;98;99]%N 2 = Some [97;98;0]%N /\ strndup [97;0]%N 7 = Some [97;0]%N.
Proof. split; reflexivity. Qed.
