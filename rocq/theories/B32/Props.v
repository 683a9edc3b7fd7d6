(** Property theorems for C01 and C02 (base32). *)
From Coq Require Import Arith NArith List Lia.
From Verif.B32 Require Import Model Spec Proofs.
Import ListNotations.
Open Scope N_scope.

(** C01: decoding what was encoded gives the bytes back, for every byte string,
    every sufficient buffer size, and any ignorable characters sprinkled in. *)
Theorem C01_b32_roundtrip : forall l txt n m,
  bytes l ->
  (encode_len (length l) <= n)%nat ->
  filter (fun c => negb (ignorable c)) txt = stores (encode l n) ->
  (max_decode_len (length txt) <= m)%nat ->
  stores (decode txt m) = l /\ ret (decode txt m) = length l.
Proof. exact roundtrip. Qed.
Print Assumptions C01_b32_roundtrip.

(** "foobar", encoded as "MZXW6YTBOI======", decoded with a dash and a newline inside. *)
Example C01_b32_roundtrip_ex :
  let l := [102;111;111;98;97;114] in
  let txt := [77;90;88;87;54;45;89;84;66;10;79;73;61;61;61;61;61;61] in
  bytes l /\ (encode_len (length l) <= 16)%nat /\
  filter (fun c => negb (ignorable c)) txt = stores (encode l 16) /\
  (max_decode_len (length txt) <= 10)%nat.
Proof. cbv zeta. split; [repeat constructor|]. split; [vm_compute; lia|].
  split; [vm_compute; reflexivity | vm_compute; lia]. Qed.

(** C01, without extra characters: also the size reported by the length function
    is the size written. *)
Theorem C01_b32_roundtrip_plain : forall l n m,
  bytes l ->
  (encode_len (length l) <= n)%nat ->
  (max_decode_len (length (stores (encode l n))) <= m)%nat ->
  ret (encode l n) = encode_len (length l) /\
  stores (decode (stores (encode l n)) m) = l /\ ret (decode (stores (encode l n)) m) = length l.
Proof. exact roundtrip_plain. Qed.
Print Assumptions C01_b32_roundtrip_plain.

Example C01_b32_roundtrip_plain_ex :
  bytes [255;0;7] /\ (encode_len 3 <= 8)%nat /\
  (max_decode_len (length (stores (encode [255%N;0%N;7%N] 8))) <= 5)%nat.
Proof. split; [repeat constructor|]. split; vm_compute; lia. Qed.

(** C01, interoperability: the text is the one RFC 4648 prescribes. *)
Theorem C01_b32_rfc4648 : forall l n,
  bytes l -> (encode_len (length l) <= n)%nat ->
  stores (encode l n) = rfc4648_base32 l /\ ret (encode l n) = length (rfc4648_base32 l).
Proof. exact encode_spec. Qed.
Print Assumptions C01_b32_rfc4648.

Example C01_b32_rfc4648_ex :
  bytes [102;111;111;98] /\ (encode_len 4 <= 8)%nat /\
  rfc4648_base32 [102;111;111;98] = [77;90;88;87;54;89;81;61].
Proof. split; [repeat constructor|]. split; vm_compute; [lia|reflexivity]. Qed.

(** C01, interoperability: the case of letters in the text does not matter. *)
Theorem C01_b32_case_insensitive : forall s t n,
  Forall2 same_letter s t -> decode s n = decode t n.
Proof. exact decode_case. Qed.
Print Assumptions C01_b32_case_insensitive.

Example C01_b32_case_insensitive_ex :
  Forall2 same_letter [77;90;88;87;54;89;84;66] [109;122;120;119;54;121;116;98] /\
  stores (decode [109;122;120;119;54;121;116;98] 5) = [102;111;111;98;97].
Proof. split; [repeat constructor; unfold same_letter; lia|vm_compute; reflexivity]. Qed.

(** C02: the encoder stays inside its buffer, for every input and size. *)
Theorem C02_b32_encode_in_bounds : forall l n, (length (stores (encode l n)) <= n)%nat.
Proof. exact encode_bound. Qed.
Print Assumptions C02_b32_encode_in_bounds.

Example C02_b32_encode_in_bounds_ex :
  length (stores (encode [1;2;3] 8)) = 8%nat /\ length (stores (encode [1;2;3] 7)) = 0%nat.
Proof. vm_compute. auto. Qed.

(** C02 is false of the decoder: it accepts a zero-size destination and stores a byte. *)
Theorem C02_b32_decode_in_bounds_refuted :
  exists src n, (n < length (stores (decode src n)))%nat.
Proof. exists [65;65;61], 0%nat. rewrite decode_overflow. exact Nat.lt_0_1. Qed.
Print Assumptions C02_b32_decode_in_bounds_refuted.

(** C02, exact characterisation: a destination size is safe for all texts
    exactly when it is 4 modulo 5. *)
Theorem C02_b32_decode_safe_sizes : forall n,
  (forall src, (length (stores (decode src n)) <= n)%nat) <-> (n mod 5 = 4)%nat.
Proof. exact decode_safe_iff. Qed.
Print Assumptions C02_b32_decode_safe_sizes.

Example C02_b32_decode_safe_sizes_ex : (9 mod 5 = 4)%nat /\ (10 mod 5 <> 4)%nat.
Proof. vm_compute. split; [reflexivity|discriminate]. Qed.

(** C02, guards that do hold: never more than 5 bytes per 8 characters ... *)
Theorem C02_b32_decode_count : forall src n,
  (8 * length (stores (decode src n)) <= 5 * length src)%nat.
Proof. exact decode_bound. Qed.
Print Assumptions C02_b32_decode_count.

Example C02_b32_decode_count_ex :
  length (stores (decode [77;90;88;87;54;89;84;66] 5)) = 5%nat.
Proof. vm_compute. reflexivity. Qed.

(** ... hence in bounds for every text whose length is a multiple of eight. *)
Theorem C02_b32_decode_in_bounds_mult8 : forall src n k,
  length src = (8 * k)%nat -> (length (stores (decode src n)) <= n)%nat.
Proof. exact decode_bound_mult8. Qed.
Print Assumptions C02_b32_decode_in_bounds_mult8.

Example C02_b32_decode_in_bounds_mult8_ex :
  length [77;90;88;87;54;89;84;66] = (8 * 1)%nat.
Proof. reflexivity. Qed.
