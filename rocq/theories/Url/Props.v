(** Property theorems for C05, C06 (URL) and C07 (HTML). *)
From Coq Require Import ZArith NArith List Lia.
From Verif.Url Require Import Model Spec Proofs.
Import ListNotations.
Open Scope Z_scope.

(** Sample memory: the bytes of [l] at addresses 100, 101, ... *)
Definition ex_mem (l : list N) : mem := fun a => nth (Z.to_nat (a - 100)) l 0%N.

(** C05: the encoder produces the canonical RFC 3986 percent-encoding, NUL terminated,
    also when the source lies inside the destination. *)
Theorem C05_url_encode_rfc3986 : forall m src n dest dlen,
  bytes (block m src n) -> 3 * Z.of_nat n <= dlen ->
  disjoint src (Z.of_nat n) dest (3 * Z.of_nat n + 1) \/ dest <= src < dest + dlen ->
  let r := url_encode m src n dest dlen in
  exists t, pct_encodes (block m src n) t /\
    ret r = Some (Z.of_nat (length t)) /\ block (rmem r) dest (length t) = t /\
    rmem r (dest + Z.of_nat (length t)) = 0%N /\
    (forall x, In x (wrote r) <->
       (dest <= src < dest + dlen /\ dest + dlen - Z.of_nat n <= x < dest + dlen) \/
       dest <= x <= dest + Z.of_nat (length t)).
Proof. exact url_encode_full. Qed.
Print Assumptions C05_url_encode_rfc3986.

(** "a b" encoded in place *)
Example C05_url_encode_rfc3986_ex :
  let m := ex_mem [97;32;98]%N in
  bytes (block m 100 3) /\ 3 * Z.of_nat 3 <= 10 /\ 100 <= 100 < 100 + 10 /\
  block (rmem (url_encode m 100 3 100 10)) 100 6 = [97;37;50;48;98;0]%N.
Proof. cbv zeta. split; [vm_compute; repeat constructor|]. split; [lia|]. split; [lia|vm_compute; reflexivity]. Qed.

(** C05: the decoder accepts exactly the percent-encodings, and yields what they encode;
    source and destination may overlap when the destination does not start after the source. *)
Theorem C05_url_decode_exact : forall m src n dest dlen,
  Z.of_nat n + 1 <= dlen -> dest <= src \/ src + Z.of_nat n <= dest ->
  let r := url_decode m src n dest dlen in
  forall l, pct_decodes (block m src n) l <->
    ret r = Some (Z.of_nat (length l)) /\ block (rmem r) dest (length l) = l.
Proof. exact url_decode_full. Qed.
Print Assumptions C05_url_decode_exact.

(** "%4a%4A" decodes in place to "JJ" *)
Example C05_url_decode_exact_ex :
  let m := ex_mem [37;52;97;37;52;65]%N in
  Z.of_nat 6 + 1 <= 7 /\ (100 <= 100 \/ 100 + Z.of_nat 6 <= 100) /\
  ret (url_decode m 100 6 100 7) = Some 2 /\ block (rmem (url_decode m 100 6 100 7)) 100 2 = [74;74]%N.
Proof. cbv zeta. split; [lia|]. split; [lia|]. vm_compute. auto. Qed.

(** C05: round trip. *)
Theorem C05_url_roundtrip : forall m src n dest dlen dest2 dlen2,
  bytes (block m src n) -> 3 * Z.of_nat n <= dlen ->
  disjoint src (Z.of_nat n) dest (3 * Z.of_nat n + 1) \/ dest <= src < dest + dlen ->
  let e := url_encode m src n dest dlen in
  exists k, ret e = Some (Z.of_nat k) /\
  (Z.of_nat k + 1 <= dlen2 -> dest2 <= dest \/ dest + Z.of_nat k <= dest2 ->
   let d := url_decode (rmem e) dest k dest2 dlen2 in
   ret d = Some (Z.of_nat n) /\ block (rmem d) dest2 n = block m src n).
Proof. exact url_roundtrip. Qed.
Print Assumptions C05_url_roundtrip.

Example C05_url_roundtrip_ex :
  let m := ex_mem [0;255;37]%N in
  bytes (block m 100 3) /\ 3 * Z.of_nat 3 <= 9 /\ disjoint 100 3 200 10 /\
  ret (url_encode m 100 3 200 9) = Some 9.
Proof. cbv zeta. split; [vm_compute; repeat constructor|]. split; [lia|].
  split; [unfold disjoint; lia|vm_compute; reflexivity]. Qed.

(** C06: the decoder is in bounds for every input and size. *)
Theorem C06_url_decode_in_bounds : forall m src n dest dlen x,
  dest <= src \/ src + Z.of_nat n <= dest ->
  In x (wrote (url_decode m src n dest dlen)) -> dest <= x < dest + dlen.
Proof. exact url_decode_bounds. Qed.
Print Assumptions C06_url_decode_in_bounds.

Example C06_url_decode_in_bounds_ex :
  (200 <= 100 \/ 100 + Z.of_nat 2 <= 200) /\
  In 201 (wrote (url_decode (ex_mem [65;66]%N) 100 2 200 3)).
Proof. split; [lia|vm_compute; auto]. Qed.

(** C06 is false of the encoder: a destination of exactly three times the source is
    accepted and the terminator lands one past its end ... *)
Theorem C06_url_encode_in_bounds_refuted : exists m src n dest dlen x,
  bytes (block m src n) /\ disjoint src (Z.of_nat n) dest (3 * Z.of_nat n + 1) /\
  ret (url_encode m src n dest dlen) = Some dlen /\
  In x (wrote (url_encode m src n dest dlen)) /\ dest + dlen <= x.
Proof.
  exists (ex_mem [32]%N), 100, 1%nat, 200, 3, 203.
  split; [vm_compute; repeat constructor|]. split; [unfold disjoint; lia|].
  split; [vm_compute; reflexivity|]. split; [vm_compute; auto|lia].
Qed.
Print Assumptions C06_url_encode_in_bounds_refuted.

(** ... and in place with a destination shorter than the source, the copy made before the
    size check starts below the destination. *)
Theorem C06_url_encode_inplace_refuted : exists m src n dest dlen x,
  bytes (block m src n) /\ src = dest /\ ret (url_encode m src n dest dlen) = None /\
  In x (wrote (url_encode m src n dest dlen)) /\ x < dest.
Proof.
  exists (ex_mem [97;98;99]%N), 100, 3%nat, 100, 2, 99.
  split; [vm_compute; repeat constructor|]. split; [reflexivity|].
  split; [vm_compute; reflexivity|]. split; [vm_compute; auto|lia].
Qed.
Print Assumptions C06_url_encode_inplace_refuted.

(** C06, guard: a destination of mtev_url_encode_len bytes is safe. *)
Theorem C06_url_encode_in_bounds : forall m src n dest dlen x,
  bytes (block m src n) ->
  disjoint src (Z.of_nat n) dest (3 * Z.of_nat n + 1) \/ dest <= src < dest + dlen ->
  url_encode_len (Z.of_nat n) <= dlen ->
  In x (wrote (url_encode m src n dest dlen)) -> dest <= x < dest + dlen.
Proof. exact url_encode_bounds. Qed.
Print Assumptions C06_url_encode_in_bounds.

Example C06_url_encode_in_bounds_ex :
  bytes (block (ex_mem [32]%N) 100 1) /\ disjoint 100 1 200 4 /\ url_encode_len (Z.of_nat 1) <= 4 /\
  In 203 (wrote (url_encode (ex_mem [32]%N) 100 1 200 4)).
Proof. split; [vm_compute; repeat constructor|]. split; [unfold disjoint; lia|].
  split; [vm_compute; discriminate|vm_compute; auto]. Qed.

(** C07: on success the text is terminated, unescapes strictly to the source (hence is
    injective on NUL-free sources) and has no active character. *)
Theorem C07_html_faithful : forall src dlen k, hret (html_encode src dlen) = Some k ->
  exists t, hstores (html_encode src dlen) = t ++ [0%N] /\ length t = k /\
    html_unescapes t (cstring src) /\ Forall (fun c => ~ html_active c) t.
Proof. exact html_ok. Qed.
Print Assumptions C07_html_faithful.

Example C07_html_faithful_ex :
  hret (html_encode [60;97;38]%N 20) = Some 10%nat.
Proof. vm_compute. reflexivity. Qed.

(** C07: in bounds, success or not. *)
Theorem C07_html_in_bounds : forall src dlen,
  Z.of_nat (length (hstores (html_encode src dlen))) <= Z.max 0 dlen.
Proof. exact html_bounds. Qed.
Print Assumptions C07_html_in_bounds.

Example C07_html_in_bounds_ex :
  length (hstores (html_encode [97;98;38]%N 5)) = 2%nat /\ hret (html_encode [97;98;38]%N 5) = None.
Proof. vm_compute. auto. Qed.

(** C07 is false on sufficiency: mtev_html_encode_len bytes are not always enough ... *)
Theorem C07_html_len_enough_refuted :
  exists src, hret (html_encode src (html_encode_len (Z.of_nat (length src)))) = None.
Proof. exists [38]%N. vm_compute. reflexivity. Qed.
Print Assumptions C07_html_len_enough_refuted.

(** ... but one more byte is. *)
Theorem C07_html_len_enough : forall src dlen,
  html_encode_len (Z.of_nat (length src)) + 1 <= dlen -> hret (html_encode src dlen) <> None.
Proof. exact html_enough. Qed.
Print Assumptions C07_html_len_enough.

Example C07_html_len_enough_ex : html_encode_len (Z.of_nat (length [38]%N)) + 1 <= 7.
Proof. vm_compute. discriminate. Qed.
