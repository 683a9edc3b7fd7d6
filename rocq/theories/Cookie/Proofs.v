From Coq Require Import NArith ZArith List Bool String Lia ZifyBool ZifyNat ZifyN.
From Verif.Url Require Model Spec Proofs.
From Verif.Cookie Require Import Model Spec.
Import ListNotations.
Local Open Scope string_scope.
Local Open Scope list_scope.
Local Open Scope nat_scope.

Lemma beq_eq : forall a b, beq a b = true <-> a = b.
Proof.
  induction a as [|x a IH]; intros [|y b]; cbn; split; try discriminate; auto.
  - intro H. apply andb_true_iff in H as [H1 H2]. apply N.eqb_eq in H1 as ->. apply IH in H2 as ->. reflexivity.
  - intro H. injection H as -> ->. rewrite N.eqb_refl. apply IH. reflexivity.
Qed.
Lemma beq_refl : forall a, beq a a = true.
Proof. intro a. apply beq_eq. reflexivity. Qed.
Lemma beq_neq : forall a b, beq a b = false <-> a <> b.
Proof. intros a b. pose proof (beq_eq a b). destruct (beq a b); intuition congruence. Qed.
Lemma starts_iff : forall p l, starts p l = true <-> exists r, l = p ++ r.
Proof.
  intros p l. unfold starts. rewrite beq_eq. split.
  - intro E. exists (skipn (List.length p) l). rewrite E at 1. symmetry. apply firstn_skipn.
  - intros [r ->]. rewrite firstn_app, Nat.sub_diag, firstn_all, firstn_O, app_nil_r. reflexivity.
Qed.
Lemma cstr_clean : forall l, clean l -> cstr l = l.
Proof.
  induction l as [|x l IH]; intro C; auto. cbn. unfold clean in *.
  destruct (N.eqb_spec x 0) as [->|]; [exfalso; apply C; left; reflexivity|].
  rewrite IH; auto. intro I. apply C. right. exact I.
Qed.
Lemma cstr_c : forall l, c_string l (cstr l).
Proof.
  induction l as [|x l IH]; [apply c_whole; intros []|]. cbn. destruct (N.eqb_spec x 0) as [->|N].
  - apply (c_cut [] l). intros [].
  - remember (cstr l) as q eqn:Q. clear Q. destruct IH as [l C|a b C].
    + apply c_whole. intros [H|H]; [congruence|apply C; exact H].
    + apply (c_cut (x :: a) b). intros [H|H]; [congruence|apply C; exact H].
Qed.

(** ** URL encoding *)
Lemma read_block : forall m n a, read m a n = Url.Spec.block m a n.
Proof. induction n as [|n IH]; intro a; cbn; [|rewrite IH]; reflexivity. Qed.
Lemma block_shift : forall l k m, (forall i, i < List.length l -> m (Z.of_nat (k + i)) = nth i l 0%N) ->
  Url.Spec.block m (Z.of_nat k) (List.length l) = l.
Proof.
  induction l as [|x l IH]; intros k m H; auto. cbn [List.length Url.Spec.block]. f_equal.
  - rewrite <- (Nat.add_0_r k). rewrite H; [reflexivity|cbn; lia].
  - replace (Z.of_nat k + 1)%Z with (Z.of_nat (S k)) by lia. apply IH. intros i L.
    replace (S k + i) with (k + S i) by lia. rewrite H; [reflexivity|cbn; lia].
Qed.
Lemma block_load : forall l, Url.Spec.block (load l) 0 (List.length l) = l.
Proof.
  intro l. change 0%Z with (Z.of_nat 0). apply block_shift. intros i L. cbn [Nat.add]. unfold load.
  destruct (Z.ltb_spec (Z.of_nat i) 0); [lia|]. rewrite Nat2Z.id. reflexivity.
Qed.
Lemma decode_ok : forall l d dest dlen, Url.Spec.pct_decodes l d ->
  (dest <= 0 \/ Z.of_nat (List.length l) <= dest)%Z -> (Z.of_nat (List.length l) + 1 <= dlen)%Z ->
  url_decode l dest dlen = d.
Proof.
  intros l d dest dlen P D L. unfold url_decode.
  destruct (Url.Proofs.url_decode_full (load l) 0 (List.length l) dest dlen L D d) as [F _].
  rewrite block_load in F. destruct (F P) as [-> B]. rewrite Nat2Z.id, read_block. exact B.
Qed.
Lemma decode_cases : forall l dest dlen,
  (dest <= 0 \/ Z.of_nat (List.length l) <= dest)%Z -> (Z.of_nat (List.length l) + 1 <= dlen)%Z ->
  url_decode l dest dlen = [] \/ Url.Spec.pct_decodes l (url_decode l dest dlen).
Proof.
  intros l dest dlen D L. unfold url_decode.
  destruct (Url.Model.ret _) as [k|] eqn:R; auto. destruct (Z.ltb_spec k 0) as [N|N].
  - left. replace (Z.to_nat k) with 0 by lia. reflexivity.
  - right. rewrite <- (block_load l) at 1. apply (Url.Proofs.url_decode_full (load l) 0 (List.length l) dest dlen L D).
    rewrite read_block, Url.Proofs.block_length. split; [|reflexivity]. rewrite R. f_equal. lia.
Qed.
Lemma decode_fails : forall l dest dlen, (forall d, ~ Url.Spec.pct_decodes l d) ->
  (dest <= 0 \/ Z.of_nat (List.length l) <= dest)%Z -> (Z.of_nat (List.length l) + 1 <= dlen)%Z ->
  url_decode l dest dlen = [].
Proof. intros l dest dlen N D L. destruct (decode_cases l dest dlen D L) as [E|P]; auto. destruct (N _ P). Qed.
Lemma encode_ok : forall l dlen, octets l -> l <> [] -> (3 * Z.of_nat (List.length l) <= dlen)%Z ->
  exists t, Url.Spec.pct_encodes l t /\ url_encode l dlen = Some t.
Proof.
  intros l dlen O N L. unfold url_encode.
  destruct (Url.Proofs.url_encode_full (load l) 0 (List.length l) 0 dlen) as (t & P & R & B & _).
  - rewrite block_load. exact O.
  - exact L.
  - right. destruct l; [congruence|]. cbn [List.length] in L. lia.
  - rewrite block_load in P. exists t. split; auto. rewrite R.
    pose proof (Url.Proofs.encodes_length _ _ P) as Q.
    destruct (Z.eqb_spec (Z.of_nat (List.length t)) 0) as [E|E].
    + destruct l; [congruence|]. cbn [List.length] in Q. lia.
    + rewrite Nat2Z.id, read_block, B. reflexivity.
Qed.
Lemma pct_chars : forall l t, Url.Spec.pct_encodes l t -> octets l ->
  Forall (fun c => Url.Spec.unreserved c \/ c = 37%N) t.
Proof.
  intros l t P. induction P as [|c l t U P IH|c l t U P IH]; intro O; inversion O; subst; constructor; auto.
  constructor; [|constructor; auto].
  - left. assert (c / 16 < 16)%N by (apply N.div_lt_upper_bound; lia).
    unfold Url.Spec.unreserved, Url.Spec.updigit. destruct (N.ltb_spec (c / 16) 10); lia.
  - left. assert (c mod 16 < 16)%N by (apply N.mod_lt; lia).
    unfold Url.Spec.unreserved, Url.Spec.updigit. destruct (N.ltb_spec (c mod 16) 10); lia.
Qed.
Lemma pct_octets : forall t l, Url.Spec.pct_decodes t l -> octets l.
Proof.
  intros t l P. induction P as [|c t l U P IH|a b x y t l A B P IH]; constructor; auto.
  - unfold Url.Spec.unreserved in U. lia.
  - unfold Url.Spec.hexdigit in *. lia.
Qed.

(** ** Numbers *)
Lemma digits_all : forall l acc r, Forall (fun d => (48 <= d <= 57)%N) l ->
  digits (l ++ r) acc = digits r (digits l acc).
Proof.
  induction l as [|d l IH]; intros acc r F; auto. inversion F; subst. cbn.
  destruct ((48 <=? d) && (d <=? 57))%N eqn:E; [|lia]. apply IH. assumption.
Qed.
Lemma number_digits : forall l n, number l n ->
  Forall (fun d => (48 <= d <= 57)%N) l /\ l <> [] /\ digits l 0 = n /\ (0 <= n)%Z.
Proof.
  intros l n H. induction H as [d D|l n d H IH D].
  - repeat split; try discriminate; auto. + cbn. destruct ((48 <=? d) && (d <=? 57))%N eqn:E; lia. + lia.
  - destruct IH as (F & N & E & P). repeat split.
    + apply Forall_app. auto.
    + destruct l; discriminate.
    + rewrite digits_all by auto. rewrite E. cbn. destruct ((48 <=? d) && (d <=? 57))%N eqn:Q; lia.
    + lia.
Qed.
Lemma strtoull_number : forall l n, number l n -> (n < 2 ^ 64)%Z -> strtoull l = n.
Proof.
  intros l n H L. apply number_digits in H as (F & N & E & P).
  destruct l as [|d l]; [congruence|]. inversion F as [|? ? D _]; subst.
  unfold strtoull. assert (S0 : skip_space (d :: l) = d :: l).
  { cbn. unfold isspace. destruct ((9 <=? d) && (d <=? 13) || (d =? 32))%N eqn:Q; [lia|reflexivity]. }
  rewrite S0. assert (G : ulong false (digits (d :: l) 0) = digits (d :: l) 0).
  { unfold ulong. destruct (Z.ltb_spec (2 ^ 64 - 1) (digits (d :: l) 0)); [|reflexivity]. clear - L H. lia. }
  assert (D1 : d <> 45%N) by lia. assert (D2 : d <> 43%N) by lia.
  transitivity (ulong false (digits (d :: l) 0)); [|exact G].
  clear - D1 D2. destruct d as [|p]; [reflexivity|].
  do 6 (destruct p as [p|p|]; try reflexivity); congruence.
Qed.
Lemma decimal_number : forall fuel n, (n < 10 ^ N.of_nat fuel)%N -> 0 < fuel -> number (decimal fuel n) (Z.of_N n).
Proof.
  induction fuel as [|fuel IH]; intros n L P; [lia|]. cbn [decimal].
  destruct (N.ltb_spec n 10) as [S|S].
  - cbn [app]. replace (Z.of_N n) with (Z.of_N (48 + n mod 10) - 48)%Z by (rewrite N.mod_small by lia; lia).
    apply num_one. rewrite N.mod_small by lia. lia.
  - assert (0 < fuel) by (destruct fuel; [cbn in L; lia|lia]).
    replace (Z.of_N n) with (10 * Z.of_N (n / 10) + (Z.of_N (48 + n mod 10) - 48))%Z.
    + apply num_more; [apply IH; auto|].
      * apply N.div_lt_upper_bound; [lia|]. rewrite Nat2N.inj_succ, N.pow_succ_r' in L. exact L.
      * assert (n mod 10 < 10)%N by (apply N.mod_lt; lia). lia.
    + pose proof (N.div_mod n 10 ltac:(lia)). lia.
Qed.
Lemma print_number : forall n, (n < 2 ^ 64)%N -> number (print n) (Z.of_N n).
Proof. intros n L. apply decimal_number; [|lia]. eapply N.lt_trans; [exact L|]. reflexivity. Qed.
Lemma decimal_length : forall fuel n, List.length (decimal fuel n) <= fuel.
Proof.
  induction fuel as [|fuel IH]; intro n; cbn [decimal]; [auto|]. rewrite app_length. cbn [List.length].
  destruct (n <? 10)%N; cbn [List.length]; [lia|]. specialize (IH (n / 10)%N). lia.
Qed.
Lemma number_octets : forall l n, number l n -> octets l /\ clean l.
Proof.
  intros l n H. apply number_digits in H as (F & _). split.
  - eapply Forall_impl; [|exact F]. cbn. intros. lia.
  - intro I. rewrite Forall_forall in F. apply F in I. lia.
Qed.

(** ** Parts *)
Lemma adv_cons : forall p r, advpart (N.of_nat (List.length p) :: p ++ r) = Some (p, r).
Proof.
  intros p r. cbn [advpart]. rewrite Nat2N.id, app_length.
  destruct (Nat.ltb_spec (List.length p + List.length r) (List.length p)); [lia|].
  rewrite firstn_app, Nat.sub_diag, firstn_all, firstn_O, app_nil_r.
  rewrite skipn_app, Nat.sub_diag, skipn_all. reflexivity.
Qed.
Lemma adv_inv : forall l p r, advpart l = Some (p, r) -> l = N.of_nat (List.length p) :: p ++ r.
Proof.
  intros [|n l] p r H; [discriminate|]. cbn [advpart] in H.
  destruct (Nat.ltb_spec (List.length l) (N.to_nat n)); [discriminate|]. injection H as <- <-.
  rewrite firstn_skipn, firstn_length_le by lia. rewrite N2Nat.id. reflexivity.
Qed.
Lemma part_small : forall l, List.length l < 256 -> part l = N.of_nat (List.length l) :: l.
Proof. intros l L. unfold part. rewrite Nat.mod_small by lia. rewrite firstn_all. reflexivity. Qed.
Lemma part_any : forall l, exists p, p = firstn (List.length l mod 256) l /\ List.length p < 256 /\ part l = N.of_nat (List.length p) :: p.
Proof.
  intro l. eexists. split; [reflexivity|]. assert (M : List.length l mod 256 < 256) by (apply Nat.mod_upper_bound; lia).
  assert (Q : List.length l mod 256 <= List.length l) by (apply Nat.mod_le; lia).
  rewrite firstn_length_le by auto. split; auto.
Qed.
Lemma parts_inv : forall qs t, parts qs t -> match qs with
  | [] => t = []
  | q :: qs' => exists t', List.length q < 256 /\ parts qs' t' /\ t = N.of_nat (List.length q) :: q ++ t'
  end.
Proof. intros qs t P. destruct P as [|p ps t L P]; eauto. Qed.
Lemma app_same : forall (q p t t' : bytes), List.length q = List.length p -> q ++ t' = p ++ t -> q = p /\ t' = t.
Proof.
  induction q as [|x q IH]; intros [|y p] t t' L E; cbn in *; try discriminate; auto.
  injection E as -> E. destruct (IH p t t') as [-> ->]; auto.
Qed.
Lemma parts_fun : forall ps t, parts ps t -> forall qs, parts qs t -> ps = qs.
Proof.
  intros ps t P. induction P as [|p ps t L P IH]; intros qs Q; apply parts_inv in Q; destruct qs as [|q qs]; auto.
  - destruct Q as (t' & _ & _ & E). discriminate.
  - discriminate.
  - destruct Q as (t' & L' & Q' & E). inversion E as [[E1 E2]].
    destruct (app_same p q t' t) as [-> ->]; auto; [lia|]. f_equal. apply IH. exact Q'.
Qed.

Lemma five_parts : forall h n u a t, List.length h < 256 -> List.length n < 256 -> List.length u < 256 ->
  List.length a < 256 -> List.length t < 256 ->
  parts [h; n; u; a; t] (part h ++ part n ++ part u ++ part a ++ part t).
Proof.
  intros h n u a t L1 L2 L3 L4 L5. rewrite !part_small by auto. repeat rewrite <- app_comm_cons.
  apply parts_cons; auto. apply parts_cons; auto. apply parts_cons; auto. apply parts_cons; auto.
  replace (N.of_nat (List.length t) :: t) with (N.of_nat (List.length t) :: t ++ []) by (rewrite app_nil_r; reflexivity).
  apply parts_cons; auto. constructor.
Qed.
Lemma print_short : forall e, List.length (print e) <= 20.
Proof. intro e. apply decimal_length. Qed.
Lemma signed_parts : forall nonce u a e, List.length nonce < 256 -> List.length u < 256 -> List.length a < 256 ->
  parts [COOKIE_HEADER; nonce; u; a; print e] (signed nonce u a e).
Proof.
  intros nonce u a e L1 L2 L3. pose proof (print_short e). apply five_parts; auto; [cbn; lia|lia].
Qed.
