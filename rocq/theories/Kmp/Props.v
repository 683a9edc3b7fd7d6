(** Property theorems for C11 and C44 (substring search). *)
From Coq Require Import Arith NArith List Lia.
From Verif.Kmp Require Import Model Spec Proofs.
Import ListNotations.

Definition ex_needle : list N := [97;98;97;98;99]%N.                 (* ababc *)
Definition ex_hay : list N := [97;98;97;98;97;98;99;97;98;97;98;99]%N. (* abababcababc *)

(** C11: the offset returned is the first occurrence, and every first occurrence is found. *)
Theorem C11_search_first_occurrence : forall needle b hay, length needle < 256 -> forall p,
  (strnstrn needle (Some b) hay = Found p <-> first_occurrence needle hay p).
Proof. exact strnstrn_exact. Qed.
Print Assumptions C11_search_first_occurrence.

Example C11_search_first_occurrence_ex :
  length ex_needle < 256 /\ strnstrn ex_needle (Some 0%N) ex_hay = Found 2.
Proof. split; [cbn; lia|vm_compute; reflexivity]. Qed.

(** C11: NULL exactly when the needle does not occur. *)
Theorem C11_search_null_iff_absent : forall needle b hay, length needle < 256 ->
  (strnstrn needle (Some b) hay = NotFound <-> forall p, ~ occurs_at needle hay p).
Proof. exact strnstrn_null. Qed.
Print Assumptions C11_search_null_iff_absent.

Example C11_search_null_iff_absent_ex :
  length ex_needle < 256 /\ strnstrn ex_needle (Some 97%N) [97;98;97;98;97]%N = NotFound.
Proof. split; [cbn; lia|vm_compute; reflexivity]. Qed.

(** C11: such a search always comes back, with no invalid access. *)
Theorem C11_search_total : forall needle b hay, length needle < 256 ->
  (exists p, strnstrn needle (Some b) hay = Found p) \/ strnstrn needle (Some b) hay = NotFound.
Proof. exact strnstrn_total. Qed.
Print Assumptions C11_search_total.

Example C11_search_total_ex : length (repeat 97%N 255) < 256 /\
  strnstrn (repeat 97%N 255) (Some 97%N) (repeat 97%N 300) = Found 0.
Proof. split; [rewrite repeat_length; lia|vm_compute; reflexivity]. Qed.

(** C44: the search should touch only the bytes it is given, for every needle the size check
    lets through.  It does not: a needle of exactly 256 bytes always overruns the table ... *)
Theorem C44_search_in_bounds_refuted : exists needle hay,
  0 < length needle <= 256 /\ strnstrn needle (Some 0%N) hay = Fault.
Proof.
  exists (repeat 97%N 256), []. split; [rewrite repeat_length; lia|].
  apply strnstrn_fault; [rewrite repeat_length; unfold KMPPATSIZE; lia|right; now rewrite repeat_length].
Qed.
Print Assumptions C44_search_in_bounds_refuted.

(** ... and every non-empty needle makes it read the byte after the needle. *)
Theorem C44_search_faults_partial : forall needle past hay, 0 < length needle <= 256 ->
  past = None \/ length needle = 256 -> strnstrn needle past hay = Fault.
Proof. exact strnstrn_fault. Qed.
Print Assumptions C44_search_faults_partial.

Example C44_search_faults_partial_ex : 0 < length ex_needle <= 256 /\ strnstrn ex_needle None ex_hay = Fault.
Proof. split; [cbn; lia|vm_compute; reflexivity]. Qed.

(** the value of the byte after the needle never matters *)
Theorem C44_search_ignores_next_byte_partial : forall needle b b' hay, length needle < 256 ->
  strnstrn needle (Some b) hay = strnstrn needle (Some b') hay.
Proof. exact strnstrn_past_irrelevant. Qed.
Print Assumptions C44_search_ignores_next_byte_partial.

Example C44_search_ignores_next_byte_partial_ex : length ex_needle < 256.
Proof. cbn; lia. Qed.

(** longer needles are refused *)
Theorem C44_search_long_needle_aborts_partial : forall needle past hay, 256 < length needle ->
  strnstrn needle past hay = Abort.
Proof. exact strnstrn_abort. Qed.
Print Assumptions C44_search_long_needle_aborts_partial.

Example C44_search_long_needle_aborts_partial_ex : 256 < length (repeat 1%N 257).
Proof. rewrite repeat_length. lia. Qed.
