(** Property theorems for C03, C04 and C43 (base64). *)
From Coq Require Import Arith NArith List Lia.
From Verif.B64 Require Import Model Spec Proofs.
Import ListNotations.
Open Scope N_scope.

(** C03: the text is the one RFC 4648 prescribes and has the announced length. *)
Theorem C03_b64_rfc4648 : forall l n,
  bytes l -> (encode_len (length l) <= n)%nat ->
  encode l n = rfc4648_base64 l /\ length (encode l n) = encode_len (length l).
Proof. exact encode_spec. Qed.
Print Assumptions C03_b64_rfc4648.

Example C03_b64_rfc4648_ex :
  bytes [102;111;111;98] /\ (encode_len 4 <= 8)%nat /\
  rfc4648_base64 [102;111;111;98] = [90;109;57;118;89;103;61;61].
Proof. split; [repeat constructor|]. split; vm_compute; [lia|reflexivity]. Qed.

(** C03: encoding an iovec is encoding the concatenation, whatever the cut. *)
Theorem C03_b64_iovec : forall iov n, encodev iov n = encode (concat iov) n.
Proof. exact encodev_concat. Qed.
Print Assumptions C03_b64_iovec.

Example C03_b64_iovec_ex :
  encodev [[102]; []; [111;111]; [98]] 8 = [90;109;57;118;89;103;61;61].
Proof. vm_compute. reflexivity. Qed.

(** C03: decoding the encoded text gives the bytes back, in any destination that has
    room for them. *)
Theorem C03_b64_roundtrip : forall l n m,
  bytes l ->
  (encode_len (length l) <= n)%nat ->
  N.of_nat (length l) <= m ->
  N.of_nat (max_decode_len (length (encode l n))) < 2 ^ 64 ->
  out (decode (encode l n) m) = map Some l /\ ret (decode (encode l n) m) = length l.
Proof. exact roundtrip_exact. Qed.
Print Assumptions C03_b64_roundtrip.

Example C03_b64_roundtrip_ex :
  bytes [255;0;7;8] /\ (encode_len 4 <= 8)%nat /\ 4 <= 4 /\
  N.of_nat (max_decode_len (length (encode [255;0;7;8] 8))) < 2 ^ 64.
Proof. split; [repeat constructor|]. split; [vm_compute; lia|]. split; vm_compute; [discriminate|reflexivity]. Qed.

(** C03: the same when white space is inserted anywhere and when the URL-safe alphabet
    is used, given a destination of the reported maximal size. *)
Theorem C03_b64_roundtrip_relaxed : forall l txt n m,
  bytes l ->
  (encode_len (length l) <= n)%nat ->
  significant txt = encode l n ->
  N.of_nat (max_decode_len (length txt)) <= m -> m < 2 ^ 64 ->
  out (decode txt m) = map Some l /\ ret (decode txt m) = length l.
Proof. exact roundtrip_sig. Qed.
Print Assumptions C03_b64_roundtrip_relaxed.

(** "-_ A=" newline after "_", decoded as "+/A=" *)
Example C03_b64_roundtrip_relaxed_ex :
  let l := [251; 240] in let txt := [45;95;10;65;61] in
  bytes l /\ (encode_len (length l) <= 4)%nat /\ significant txt = encode l 4 /\
  N.of_nat (max_decode_len (length txt)) <= 6.
Proof. cbv zeta. split; [repeat constructor|]. split; [vm_compute; lia|].
  split; vm_compute; [reflexivity|discriminate]. Qed.

(** C04: nothing is stored at or past the destination length, by the fast or the slow
    pass, for any text and size; and what is returned was stored. *)
Theorem C04_b64_decode_in_bounds : forall src m,
  N.of_nat (max_decode_len (length src)) < 2 ^ 64 ->
  N.of_nat (extent (decode src m)) <= m /\ (ret (decode src m) <= extent (decode src m))%nat.
Proof. exact decode_bound. Qed.
Print Assumptions C04_b64_decode_in_bounds.

(** "QUJD!QUI=": the fast pass stores 3 bytes before the illegal character. *)
Example C04_b64_decode_in_bounds_ex :
  extent (decode [81;85;74;68;33;81;85;73;61] 8) = 3%nat /\
  extent (decode [81;85;74;68;33;81;85;73;61] 7) = 0%nat /\
  N.of_nat (max_decode_len 9) < 2 ^ 64.
Proof. vm_compute. auto. Qed.

(** C04: the reported maximum is an upper bound of the value returned. *)
Theorem C04_b64_decode_max_len : forall src m, (ret (decode src m) <= max_decode_len (length src))%nat.
Proof. exact decode_max. Qed.
Print Assumptions C04_b64_decode_max_len.

Example C04_b64_decode_max_len_ex : ret (decode [65;61;65;61;65;61] 6) = 3%nat /\ max_decode_len 6 = 6%nat.
Proof. vm_compute. auto. Qed.

(** C04: the encoder is in bounds too. *)
Theorem C04_b64_encode_in_bounds : forall l n, (length (encode l n) <= n)%nat.
Proof. exact encode_bound. Qed.
Print Assumptions C04_b64_encode_in_bounds.

Example C04_b64_encode_in_bounds_ex : length (encode [1;2] 4) = 4%nat /\ length (encode [1;2] 3) = 0%nat.
Proof. vm_compute. auto. Qed.

(** C43 is false: the output for the text "A=" is an indeterminate value. *)
Theorem C43_b64_decode_determinate_refuted :
  exists txt m, In None (out (decode txt m)).
Proof. exists [65;61], 3. vm_compute. auto. Qed.
Print Assumptions C43_b64_decode_determinate_refuted.

(** C43, exact characterisation: the output is determinate unless the significant
    characters start with one letter followed by '='. *)
Theorem C43_b64_decode_determinate : forall txt m,
  N.of_nat (max_decode_len (length txt)) <= m -> m < 2 ^ 64 ->
  (forall x, In x (out (decode txt m)) -> x <> None) <->
  ~ (exists x r, is_letter64 x /\ significant txt = x :: 61 :: r).
Proof. exact decode_determinate. Qed.
Print Assumptions C43_b64_decode_determinate.

Example C43_b64_decode_determinate_ex :
  N.of_nat (max_decode_len (length [65;66;67;68;69;61])) <= 6 /\
  out (decode [65;66;67;68;69;61] 6) = [Some 0; Some 16; Some 131; Some 16].
Proof. split; vm_compute; [discriminate|reflexivity]. Qed.
