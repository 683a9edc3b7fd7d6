(** The table, and the text that is built. *)
From Coq Require Import NArith Arith List Bool Ascii String Permutation Sorted Lia ZifyBool ZifyNat ZifyN.
From Verif.Reply Require Import Model Spec.
Import ListNotations.
Local Open Scope nat_scope.

Lemma bs_text : forall s, bs s = text s.
Proof. induction s as [|a s IH]; [reflexivity|]. unfold text in *. cbn. now rewrite IH. Qed.

Lemma beq_eq : forall a b, beq a b = true <-> a = b.
Proof.
  induction a as [|x a IH]; destruct b as [|y b]; cbn; split; intro E; try discriminate; try reflexivity.
  - apply andb_true_iff in E as [E1 E2]. apply N.eqb_eq in E1. apply IH in E2. now subst.
  - injection E as -> ->. rewrite N.eqb_refl. cbn. now apply IH.
Qed.
Lemma beq_refl : forall a, beq a a = true.
Proof. intro a. now apply beq_eq. Qed.
Lemma beq_spec : forall a b, reflect (a = b) (beq a b).
Proof. intros a b. apply iff_reflect. symmetry. apply beq_eq. Qed.
Lemma beq_neq : forall a b, a <> b -> beq a b = false.
Proof. intros a b H. destruct (beq_spec a b); [contradiction|reflexivity]. Qed.

Lemma hget_hset : forall t k v k', hget (hset t k v) k' = if beq k k' then Some v else hget t k'.
Proof.
  induction t as [|[a b] t IH]; intros k v k'; cbn; [reflexivity|].
  destruct (beq_spec a k) as [->|N].
  - cbn. destruct (beq k k'); reflexivity.
  - cbn. rewrite IH. destruct (beq_spec a k') as [->|N'].
    + destruct (beq_spec k k') as [->|_]; [contradiction|reflexivity].
    + reflexivity.
Qed.

Lemma hset_in : forall t k v a, In a (map fst (hset t k v)) <-> a = k \/ In a (map fst t).
Proof.
  induction t as [|[x y] t IH]; intros k v a; cbn.
  - intuition congruence.
  - destruct (beq_spec x k) as [->|N]; cbn; [intuition congruence|]. rewrite IH. intuition congruence.
Qed.
Lemma hset_nodup : forall t k v, NoDup (map fst t) -> NoDup (map fst (hset t k v)).
Proof.
  induction t as [|[x y] t IH]; intros k v H; cbn.
  - repeat constructor; intros [].
  - cbn in H. inversion H; subst. destruct (beq_spec x k) as [->|N]; cbn; constructor; auto.
    intro I. apply hset_in in I as [I|I]; congruence.
Qed.
Lemma hget_in : forall t k v, hget t k = Some v -> In (k, v) t.
Proof.
  induction t as [|[a b] t IH]; intros k v E; cbn in E; [discriminate|].
  destruct (beq_spec a k) as [->|N]; [injection E as ->; now left|right; now apply IH].
Qed.
Lemma in_hget : forall t k v, NoDup (map fst t) -> In (k, v) t -> hget t k = Some v.
Proof.
  induction t as [|[a b] t IH]; intros k v H I; [destruct I|].
  cbn in *. inversion H; subst. destruct I as [I|I].
  - injection I as -> ->. now rewrite beq_refl.
  - rewrite beq_neq; [now apply IH|]. intros ->. apply H2. apply (in_map fst) in I. exact I.
Qed.

(** * The status line *)
Lemma status_text_spec : forall r, (status r < 1000)%N ->
  exists l, status_line (protocol r) (status r) (reason r) l /\ status_text r = l ++ crlf.
Proof.
  intros r H.
  eexists. split.
  - exists (status r / 100)%N, (status r / 10 mod 10)%N, (status r mod 10)%N. repeat split.
    + apply N.lt_succ_r. change (N.succ 9) with 10%N. apply N.div_lt_upper_bound; lia.
    + pose proof (N.mod_lt (status r / 10) 10 ltac:(discriminate)). lia.
    + pose proof (N.mod_lt (status r) 10 ltac:(discriminate)). lia.
    + pose proof (N.div_mod (status r) 10 ltac:(discriminate)) as E1.
      pose proof (N.div_mod (status r / 10) 10 ltac:(discriminate)) as E2.
      rewrite N.div_div in E2 by discriminate. change (10 * 10)%N with 100%N in E2. lia.
  - unfold status_text, code3. rewrite (N.mod_small (status r / 100) 10) by (apply N.div_lt_upper_bound; lia).
    destruct (protocol r), (reason r); cbn - [N.add N.div N.modulo]; rewrite <- ?app_assoc; reflexivity.
Qed.

(** * Blocks *)
Definition blocks (c : chain) : list bytes := full c ++ [last_block c].
Lemma concat_blocks : forall c, List.concat (blocks c) = List.concat (full c) ++ last_block c.
Proof. intro c. unfold blocks. rewrite concat_app. cbn. now rewrite app_nil_r. Qed.
Lemma append_text : forall B c s, List.concat (blocks (append B c s)) = List.concat (blocks c) ++ s.
Proof.
  intros B c s. rewrite !concat_blocks. unfold append.
  destruct (allocd c - List.length (last_block c) <? List.length s); cbn.
  - rewrite concat_app. cbn. now rewrite app_nil_r.
  - now rewrite app_assoc.
Qed.
Definition value_of (t : table) (k : bytes) : bytes := match hget t k with Some v => v | None => [] end.
Lemma append_header_text : forall B t c k,
  List.concat (blocks (append_header B t c k)) =
  List.concat (blocks c) ++ field_line (k, value_of t k) ++ crlf.
Proof.
  intros B t c k. unfold append_header, field_line. fold (value_of t k). cbn [fst snd].
  rewrite append_text. unfold crlf, text. cbn [list_ascii_of_string map N_of_ascii].
  destruct (value_of t k) as [|x v] eqn:E.
  - rewrite !append_text. rewrite !app_nil_r, <- !app_assoc. reflexivity.
  - rewrite !append_text. rewrite <- !app_assoc. reflexivity.
Qed.
Lemma headers_text : forall B t keys c,
  List.concat (blocks (fold_left (append_header B t) keys c)) =
  List.concat (blocks c) ++ flat_map (fun f => field_line f ++ crlf) (map (fun k => (k, value_of t k)) keys).
Proof.
  induction keys as [|k keys IH]; intro c; cbn [fold_left map flat_map].
  - now rewrite app_nil_r.
  - rewrite IH, append_header_text, <- !app_assoc. reflexivity.
Qed.

(** every block stays within its size *)
Definition fits (c : chain) : Prop := List.length (last_block c) <= allocd c.
Lemma append_fits : forall B c s, fits c -> fits (append B c s).
Proof.
  intros B c s H. unfold fits, append in *.
  destruct (allocd c - List.length (last_block c) <? List.length s) eqn:E; cbn.
  - apply Nat.le_max_l.
  - apply Nat.ltb_ge in E. rewrite app_length. lia.
Qed.

Lemma table_fields : forall t, NoDup (map fst t) ->
  map (fun k => (k, value_of t k)) (map fst t) = t.
Proof.
  intros t H. rewrite map_map. rewrite <- (map_id t) at 2. apply map_ext_in.
  intros [k v] I. cbn. unfold value_of. now rewrite (in_hget t k v H I).
Qed.
