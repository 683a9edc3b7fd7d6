(** Properties of the JSON objects, their serialised form and the parser. *)
From Coq Require Import NArith ZArith List Bool Lia.
From Verif Require Import Json.Model Json.Spec Json.Proofs Json.Proofs2 Json.Proofs3 Json.Proofs4 Json.Proofs5 Json.Proofs6 Json.Proofs7 Json.Proofs8.
Import ListNotations.
Local Open Scope N_scope.

(** The environment of the examples: "%d" saturates, no doubles. *)
Definition env0 : env :=
  mkenv (fun _ => None) (fun z => if (z <? 0)%Z then int_min else int_max) (fun _ => false) (fun _ => []).
Lemma env0_ok : env_ok env0.
Proof. intros z. cbn [scan_d_wide env0]. destruct (z <? 0)%Z; cbv; split; congruence || reflexivity. Qed.

(** {"a": [1, "x"]} *)
Definition obj0 : jv := JObj [([97], JArr [new_int 1; JStr [120]])].

(** *** C85: round trip *)

(** A container nested at most 31 deep is read back as it was. *)
Theorem C85_round_trip : forall e v, env_ok e -> built e v -> is_container v -> (nesting v <= 31)%nat ->
  gives (parse_len e (to_json e v)) [] (meaning v) /\ gives (parse e (to_json e v)) [0] (meaning v).
Proof. exact round_trip. Qed.
Print Assumptions C85_round_trip.

Example C85_round_trip_ex : env_ok env0 /\ built env0 obj0 /\ is_container obj0 /\ (nesting obj0 <= 31)%nat
  /\ meaning obj0 = Map [([97], List [Integer 1; Text [120]])]
  /\ to_json env0 obj0 = [123;32;34;97;34;58;32;91;32;49;44;32;34;120;34;32;93;32;125].
Proof.
  split; [exact env0_ok|]. split.
  { cbn. split; [constructor; [auto|constructor]|]. repeat split; try (repeat constructor; lia); lia. }
  split; [exact Logic.I|]. split; [cbn; lia|]. split; reflexivity.
Qed.

(** *** C42: round trip of every value *)

(** What holds of it. Left out: values that are no containers, deeper ones. *)
Theorem C42_round_trip_partial : forall e v, env_ok e -> built e v -> is_container v -> (nesting v <= 31)%nat ->
  gives (parse_len e (to_json e v)) [] (meaning v).
Proof. intros e v E B C N. exact (proj1 (round_trip e v E B C N)). Qed.
Print Assumptions C42_round_trip_partial.

Example C42_round_trip_partial_ex :
  gives (parse_len env0 (to_json env0 obj0)) [] (Map [([97], List [Integer 1; Text [120]])]).
Proof. eexists _, _. split; [vm_compute; reflexivity|split; reflexivity]. Qed.

(** No value other than an array or an object is read back. *)
Theorem C42_scalars_refuted : forall e v, built e v -> ~ is_container v ->
  (exists t r, parse_len e (to_json e v) = Ret t None r /\ err t = E_unexpected) /\
  (exists t r, parse e (to_json e v) = Ret t None r /\ err t = E_unexpected).
Proof. exact scalar_rejected. Qed.
Print Assumptions C42_scalars_refuted.

Example C42_scalars_refuted_ex : built env0 (JStr [104; 105]) /\ ~ is_container (JStr [104; 105])
  /\ to_json env0 (JStr [104; 105]) = [34; 104; 105; 34].
Proof. split; [repeat constructor|]. split; [exact (fun x => x)|reflexivity]. Qed.

(** An array nested 32 deep is not read back. *)
Theorem C42_deep_refuted : forall e, exists v,
  built e v /\ is_container v /\ nesting v = 32%nat /\
  exists t r, parse_len e (to_json e v) = Ret t None r /\ err t = E_depth.
Proof.
  intros e. destruct (nested_ok e 32) as (A & B & C).
  exists (nested 32). split; [exact A|]. split; [exact B|]. split; [exact C|]. exact (too_deep e).
Qed.
Print Assumptions C42_deep_refuted.

Example C42_deep_refuted_ex : nesting (nested 31) = 31%nat /\ nesting (nested 32) = 32%nat.
Proof. split; reflexivity. Qed.

(** *** C86: pieces *)

(** A document fed in pieces is read as the whole, if its bracket is in the
    first piece. *)
Theorem C86_pieces : forall e n p ps v,
  env_ok e -> document e none n (concat (p :: ps)) v -> (n <= 31)%nat ->
  In 91 p \/ In 123 p -> gives (feed e tok_new (p :: ps)) [] v.
Proof.
  intros e n p ps v E D N H. apply (pieces e n p ps v E D N). apply Exists_exists.
  destruct H as [H|H]; [exists 91|exists 123]; (split; [exact H|reflexivity]).
Qed.
Print Assumptions C86_pieces.

Lemma C86_doc : document env0 none 1 (concat [[91]; [49]; []; [50; 93; 32]]) (List [Integer 12]).
Proof.
  exists [], [91; 49; 50; 93], [32]. split; [reflexivity|]. split; [constructor|].
  split; [|split; [repeat constructor|exact Logic.I]].
  apply (j_arr env0 none 0 [49; 50]). apply (el_one env0 none 0 [] [49; 50] []); [constructor| |constructor].
  apply j_int; [|left; lia]. apply (int_pos [49; 50] 12).
  apply (nat_more [49] 1 2); [apply (nat_digit 1); lia|discriminate|lia].
Qed.
Example C86_pieces_ex : document env0 none 1 (concat [[91]; [49]; []; [50; 93; 32]]) (List [Integer 12])
  /\ In 91 [91] /\ gives (feed env0 tok_new [[91]; [49]; []; [50; 93; 32]]) [] (List [Integer 12]).
Proof.
  split; [exact C86_doc|]. split; [left; reflexivity|].
  eexists _, _. split; [vm_compute; reflexivity|split; reflexivity].
Qed.

(** Whatever was read before: a parser that asked for more goes on as if the
    two pieces had come as one. *)
Theorem C86_continue : forall e l t a t1 v rest,
  do_calls e tok_new l = Some t -> parse_ex e true t a = Ret t1 v rest -> err t1 = E_continue ->
  rest = [] /\ v = None /\ forall b, parse_ex e true t1 b = parse_ex e true t (a ++ b).
Proof.
  intros e l t a t1 v rest H P C.
  destruct (calls_inv e l tok_new new_inv) as (t' & H' & I & R); [split; discriminate|].
  rewrite H in H'. injection H' as <-.
  destruct (continue_app e t a t1 v rest I R P C) as (A & B & _ & _ & _ & F). auto.
Qed.
Print Assumptions C86_continue.

Example C86_continue_ex : exists t1, parse_ex env0 true tok_new [91; 49] = Ret t1 None [] /\ err t1 = E_continue
  /\ gives (parse_ex env0 true t1 [50; 93]) [] (List [Integer 12]).
Proof.
  eexists. split; [vm_compute; reflexivity|]. split; [reflexivity|].
  eexists _, _. split; [vm_compute; reflexivity|split; reflexivity].
Qed.

(** An answer that leaves input over does not depend on what follows. *)
Theorem C86_early : forall e l t a t1 v rest b,
  do_calls e tok_new l = Some t -> parse_ex e true t a = Ret t1 v rest -> rest <> [] ->
  parse_ex e true t (a ++ b) = Ret t1 v (rest ++ b).
Proof.
  intros e l t a t1 v rest b H P N.
  destruct (calls_inv e l tok_new new_inv) as (t' & H' & I & R); [split; discriminate|].
  rewrite H in H'. injection H' as <-. exact (early_app e t a t1 v rest b I R P N).
Qed.
Print Assumptions C86_early.

Example C86_early_ex : exists t1 o, parse_ex env0 true tok_new [91; 93; 91] = Ret t1 (Some o) [91].
Proof. eexists _, _. vm_compute. reflexivity. Qed.

(** A document whose first piece is white space is refused as empty. *)
Theorem C86_blank_refuted : forall e, exists p ps v,
  document e none 0 (concat (p :: ps)) v /\ ~ gives (feed e tok_new (p :: ps)) [] v /\
  gives (parse_len e (concat (p :: ps))) [] v.
Proof.
  intros e. exists [32], [[91; 93]], (List []). split; [|split].
  - exists [32], [91; 93], []. split; [reflexivity|]. split; [repeat constructor|].
    split; [apply (j_arr0 e none 0 []); constructor|]. split; [constructor|exact Logic.I].
  - intros (t & o & H & _). vm_compute in H. discriminate H.
  - eexists _, _. split; [vm_compute; reflexivity|split; reflexivity].
Qed.
Print Assumptions C86_blank_refuted.

Example C86_blank_refuted_ex : exists t, feed env0 tok_new [[32]; [91; 93]] = Ret t None [] /\ err t = E_eof.
Proof. eexists. split; [vm_compute; reflexivity|reflexivity]. Qed.

(** *** C87: what is read *)

(** Every document nested at most 31 deep without the six features is read,
    with its length or with a NUL at its end. *)
Theorem C87_document : forall e n s v, env_ok e -> document e none n s v -> (n <= 31)%nat ->
  gives (parse_len e s) [] v /\ gives (parse e s) [0] v.
Proof.
  intros e n s v E D N. split; [exact (document_len e E n s v D N)|exact (document_parse e E n s v D N)].
Qed.
Print Assumptions C87_document.

Example C87_document_ex : document env0 none 1 [91; 49; 50; 93; 32] (List [Integer 12]).
Proof. exact C86_doc. Qed.

(** What follows a document is left unread. *)
Theorem C87_rest : forall e n s v x y, env_ok e -> document e none n s v -> (n <= 31)%nat ->
  isspace x = false -> x <> 47 ->
  forall bounded, gives (parse_ex e bounded tok_new (s ++ x :: y)) (x :: y) v.
Proof. intros e n s v x y E D N X Y. exact (document_more e E n s v x y D N X Y). Qed.
Print Assumptions C87_rest.

Example C87_rest_ex :
  gives (parse_ex env0 true tok_new ([91; 49; 50; 93; 32] ++ [91; 49])) [91; 49] (List [Integer 12]).
Proof. eexists _, _. split; [vm_compute; reflexivity|split; reflexivity]. Qed.

(** Each of the six is part of RFC 8259 and is refused or read as something else. *)
Theorem C87_features_refuted : forall e f, env_ok e -> (exists d, scan_lf e [49; 69; 53] = Some d) ->
  exists v, document e (eq f) 1 (witness f) v /\ ~ gives (parse_len e (witness f)) [] v.
Proof. exact features_refuted. Qed.
Print Assumptions C87_features_refuted.

(** How they are read: capital digits are added up as they are, 1E5 is 1, a
    number beyond 64 bits is the greatest one. *)
Example C87_features_refuted_ex :
  let read f := match parse_len env0 (witness f) with Ret t (Some o) _ => Some (meaning o) | _ => None end in
  read Upper_hex = None /\ read Form_feed = None
  /\ read Surrogates = Some (List [Text [237; 160; 189; 237; 184; 128]])
  /\ read Nul_escape = Some (List [Text []])
  /\ read Upper_exponent = Some (List [Integer 1])
  /\ read Big_integer = Some (List [Integer 18446744073709551615]).
Proof. vm_compute. repeat split. Qed.

(** *** C88: numbers *)

(** An integer of a document is what the getters of its range return. *)
Theorem C88_parsed : forall e s z, env_ok e -> integer s z -> (- 2 ^ 63 <= z < 2 ^ 64)%Z ->
  exists t x, parse_len e ([91] ++ s ++ [93]) = Ret t (Some (JArr [x])) [] /\ err t = E_success /\
    ((z < 2 ^ 63)%Z -> get_int64 x = z) /\ ((0 <= z)%Z -> get_uint64 x = z) /\
    ((- 2 ^ 31 <= z < 2 ^ 31)%Z -> get_int x = z /\ get_double_of_int x = z /\
       get_boolean x = negb (z =? 0)%Z).
Proof. exact parsed_getters. Qed.
Print Assumptions C88_parsed.

Example C88_parsed_ex : integer [45; 55] (-7) /\ (- 2 ^ 63 <= -7 < 2 ^ 64)%Z.
Proof. split; [apply (int_neg [55] 7); apply (nat_digit 7); lia|lia]. Qed.

(** A number put into an object is what the getter of the same type returns,
    and it is the number that is printed. *)
Theorem C88_built : forall e z,
  ((- 2 ^ 31 <= z < 2 ^ 31)%Z -> get_int (new_int z) = z /\ meaning (new_int z) = Integer z /\ built e (new_int z)) /\
  ((- 2 ^ 63 <= z < 2 ^ 63)%Z -> get_int64 (new_int64 z) = z /\ meaning (new_int64 z) = Integer z /\ built e (new_int64 z)) /\
  ((0 <= z < 2 ^ 64)%Z -> get_uint64 (new_uint64 z) = z /\ meaning (new_uint64 z) = Integer z /\ built e (new_uint64 z)).
Proof.
  intros e z. unfold new_int, new_int64, new_uint64. cbn [get_int get_int64 get_uint64 meaning number_of built].
  unfold as_i64, i64_max, two64. change (2 ^ 31)%Z with 2147483648%Z.
  change (2 ^ 63)%Z with 9223372036854775808%Z. change (2 ^ 64)%Z with 18446744073709551616%Z.
  split; [|split].
  - intros H. split; [reflexivity|]. split; [reflexivity|lia].
  - intros H. pose proof (Z.mod_pos_bound z 18446744073709551616 eq_refl) as B.
    assert (M : (z mod 18446744073709551616 = if z <? 0 then z + 18446744073709551616 else z)%Z).
    { destruct (Z.ltb_spec z 0); [symmetry; apply (Z.mod_unique_pos _ _ (-1)); lia|apply Z.mod_small; lia]. }
    rewrite M in *. split; [|split; [f_equal|lia]];
      destruct (Z.ltb_spec z 0);
      match goal with |- context [if ?b then _ else _] => destruct b eqn:K end; lia.
  - intros H. split; [reflexivity|]. split; [reflexivity|lia].
Qed.
Print Assumptions C88_built.

Example C88_built_ex : get_int64 (new_int64 (-5)) = (-5)%Z /\ to_json env0 (new_int64 (-5)) = [45; 53].
Proof. split; reflexivity. Qed.

(** A getter of another type loses the number. *)
Theorem C88_other_refuted : forall z,
  get_int64 (new_int z) = 0%Z /\ get_uint64 (new_int z) = 0%Z /\
  get_int (new_int64 z) = 0%Z /\ get_double_of_int (new_int64 z) = 0%Z /\ get_boolean (new_int64 z) = false /\
  get_int (new_uint64 z) = 0%Z /\ get_double_of_int (new_uint64 z) = 0%Z /\ get_boolean (new_uint64 z) = false.
Proof. intros z. repeat split. Qed.
Print Assumptions C88_other_refuted.

Example C88_other_refuted_ex : meaning (new_int 5) = Integer 5 /\ get_int64 (new_int 5) = 0%Z.
Proof. split; reflexivity. Qed.

(** *** C89: safety *)

(** No sequence of calls with any input leads the parser out of its stack,
    and it returns from every one. *)
Theorem C89_safe : forall e l, exists t, do_calls e tok_new l = Some t /\ (depth t < 32)%nat.
Proof. exact calls_safe. Qed.
Print Assumptions C89_safe.

Example C89_safe_ex : exists t,
  do_calls env0 tok_new [Chunk (repeat 91 40); CString [123; 47; 42]; Reset; Chunk [0; 255]; Chunk []] = Some t.
Proof. eexists. vm_compute. reflexivity. Qed.

(** *** C90: documents cut short *)

(** With the length given, a beginning of a document is either refused (more
    is asked for, or it is empty), or all that is missing is not needed. *)
Theorem C90_truncated : forall e n s v x y, env_ok e -> document e none n s v -> (n <= 31)%nat -> s = x ++ y ->
  match parse_len e x with
  | Ret t1 (Some o1) rest => meaning o1 = v /\ rest = []
  | Ret t1 None rest => err t1 = E_continue \/ err t1 = E_eof
  | Wrong => False
  end.
Proof. exact truncated. Qed.
Print Assumptions C90_truncated.

Example C90_truncated_ex : exists t1, parse_len env0 [91; 49] = Ret t1 None [] /\ err t1 = E_continue
  /\ document env0 none 1 ([91; 49] ++ [50; 93; 32]) (List [Integer 12]).
Proof. eexists. split; [vm_compute; reflexivity|]. split; [reflexivity|exact C86_doc]. Qed.

(** A string ended by NUL is answered as with its length, unless it ends inside
    a comment. *)
Theorem C90_nul : forall e x, ~ In 0 x ->
  match parse_len e x with
  | Ret t1 (Some o) r1 => exists t2, parse e x = Ret t2 (Some o) (r1 ++ [0]) /\ err t2 = E_success
  | Ret t1 None r1 =>
      (err t1 = E_continue /\ In (state (top t1)) [S_comment_start; S_comment; S_comment_eol; S_comment_end])
      \/ exists t2 r2, parse e x = Ret t2 None r2
  | Wrong => False
  end.
Proof. exact nul_agree. Qed.
Print Assumptions C90_nul.

Example C90_nul_ex : exists t r, parse env0 [91; 49] = Ret t None r /\ err t = E_eof /\ ~ In 0 [91; 49].
Proof.
  eexists _, _. split; [vm_compute; reflexivity|]. split; [reflexivity|].
  intros [H|[H|[]]]; discriminate H.
Qed.

(** The string  [1 /* a  is accepted as the number 1, and it is the beginning
    of a text read as the array [1]. *)
Theorem C90_comment_refuted : forall e, exists x y,
  gives (parse e x) [] (Integer 1) /\ gives (parse_len e (x ++ y)) [] (List [Integer 1]).
Proof.
  intros e. exists [91; 49; 32; 47; 42; 32; 97], [42; 47; 93]. split.
  - eexists _, _. split; [vm_compute; reflexivity|split; reflexivity].
  - eexists _, _. split; [vm_compute; reflexivity|split; reflexivity].
Qed.
Print Assumptions C90_comment_refuted.

(** The end of a comment is missed when a star precedes it: slash, three stars, slash. *)
Example C90_comment_refuted_ex :
  match parse_len env0 [91; 47; 42; 42; 42; 47; 49; 93] with Ret t None _ => err t = E_continue | _ => False end.
Proof. vm_compute. reflexivity. Qed.
