(** Property theorems for C08 (UUID text form). *)
From Coq Require Import NArith List Lia.
From Verif.Uuid Require Import Model Spec Proofs.
Import ListNotations.
Open Scope N_scope.

Definition ex_uu : list N := [0;1;35;69;103;137;171;205;239;16;50;84;118;152;186;220].

(** C08: parsing a printed identifier gives it back, whatever follows the terminator. *)
Theorem C08_uuid_roundtrip : forall u rest, length u = 16%nat -> bytes u ->
  uuid_parse (unparse_lower u ++ rest) = Accept u /\ uuid_parse (unparse_upper u ++ rest) = Accept u /\
  uuid_parse (unparse u ++ rest) = Accept u.
Proof. exact roundtrip. Qed.
Print Assumptions C08_uuid_roundtrip.

Example C08_uuid_roundtrip_ex : length ex_uu = 16%nat /\ bytes ex_uu.
Proof. split; [reflexivity|]. repeat constructor. Qed.

(** C08: a C string is accepted exactly when it is an 8-4-4-4-12 text, and then the bytes
    are the ones it denotes. *)
Theorem C08_uuid_parse_exact : forall t rest u, ~ In 0 t ->
  uuid_parse (t ++ 0 :: rest) = Accept u <-> denotes any_digit uuid_shape t u.
Proof. exact parse_exact. Qed.
Print Assumptions C08_uuid_parse_exact.

Example C08_uuid_parse_exact_ex :
  let t := removelast (unparse_upper ex_uu) in
  ~ In 0 t /\ uuid_parse (t ++ [0]) = Accept ex_uu.
Proof. cbv zeta. split; [vm_compute; intuition discriminate|vm_compute; reflexivity]. Qed.

(** C08: no read goes past the terminator of the string. *)
Theorem C08_uuid_parse_in_bounds : forall s, In 0 s -> uuid_parse s <> Fault.
Proof. exact parse_nofault. Qed.
Print Assumptions C08_uuid_parse_in_bounds.

Example C08_uuid_parse_in_bounds_ex : In 0 [97; 0] /\ uuid_parse [97; 0] = Reject.
Proof. split; [cbn; auto|reflexivity]. Qed.

(** C08: printing an accepted text gives its lower-case (upper-case) form. *)
Theorem C08_uuid_canonical : forall t rest u, ~ In 0 t -> uuid_parse (t ++ 0 :: rest) = Accept u ->
  unparse_lower u = map lower t ++ [0] /\ unparse_upper u = map upper t ++ [0].
Proof. exact canonical. Qed.
Print Assumptions C08_uuid_canonical.

Example C08_uuid_canonical_ex :
  let t := removelast (unparse_upper ex_uu) in
  ~ In 0 t /\ uuid_parse (t ++ 0 :: [1]) = Accept ex_uu /\ unparse_lower ex_uu <> t ++ [0].
Proof. cbv zeta. split; [vm_compute; intuition discriminate|]. split; [vm_compute; reflexivity|vm_compute; discriminate]. Qed.

(** C08: printing writes 36 characters and a terminator. *)
Theorem C08_uuid_unparse_shape : forall u, length u = 16%nat -> bytes u ->
  exists t, unparse_lower u = t ++ [0] /\ length t = 36%nat /\ denotes lower_digit uuid_shape t u.
Proof. exact unparse_lower_spec. Qed.
Print Assumptions C08_uuid_unparse_shape.

Example C08_uuid_unparse_shape_ex : length (unparse_lower ex_uu) = 37%nat.
Proof. reflexivity. Qed.
