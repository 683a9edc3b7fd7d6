From Coq Require Import NArith ZArith List Bool Lia ZifyBool ZifyNat ZifyN.
From Verif.Head Require Import Model Spec.
Import ListNotations.
Local Open Scope nat_scope.

Lemma beq_eq : forall a b, beq a b = true <-> a = b.
Proof.
  induction a as [|x a IH]; destruct b as [|y b]; cbn [beq]; split; intro H; try discriminate; auto.
  - apply andb_true_iff in H as [H1 H2]. apply N.eqb_eq in H1. apply IH in H2. congruence.
  - injection H as -> ->. rewrite N.eqb_refl. apply IH. reflexivity.
Qed.
Lemma beq_refl : forall a, beq a a = true.
Proof. intro. apply beq_eq. reflexivity. Qed.
Lemma beq_neq : forall a b, beq a b = false <-> a <> b.
Proof.
  intros. rewrite <- beq_eq. destruct (beq a b); split; congruence.
Qed.

Lemma front_iff : forall n l, front n l = true <-> exists r, l = n ++ r.
Proof.
  intros n l. unfold front. rewrite beq_eq. split.
  - intro E. exists (skipn (length n) l). rewrite E at 1. symmetry. apply firstn_skipn.
  - intros [r ->]. rewrite firstn_app, Nat.sub_diag, firstn_all, app_nil_r. reflexivity.
Qed.

Lemma memmem_some : forall n l k, memmem n l = Some k ->
  exists a b, l = a ++ n ++ b /\ length a = k /\ (forall a' b', l = a' ++ n ++ b' -> k <= length a').
Proof.
  intros n. induction l as [|x l IH]; intros k E; cbn [memmem] in E.
  - destruct (front n []) eqn:F; [|discriminate]. injection E as <-.
    apply front_iff in F as [r F]. exists [], r. cbn. repeat split; auto. intros; lia.
  - destruct (front n (x :: l)) eqn:F.
    + injection E as <-. apply front_iff in F as [r F]. exists [], r. cbn. repeat split; auto. intros; lia.
    + destruct (memmem n l) as [j|] eqn:M; [|discriminate]. injection E as <-.
      destruct (IH _ eq_refl) as (a & b & -> & La & Min).
      exists (x :: a), b. cbn. repeat split; auto.
      intros a' b' E. destruct a' as [|y a'].
      * exfalso. cbn in E. assert (front n (x :: a ++ n ++ b) = true) by (apply front_iff; eauto).
        congruence.
      * cbn. injection E as _ E. apply Min in E. lia.
Qed.
Lemma memmem_none : forall n l, memmem n l = None <-> (forall a b, l <> a ++ n ++ b).
Proof.
  intros n. induction l as [|x l IH]; cbn [memmem].
  - destruct (front n []) eqn:F.
    + split; [discriminate|]. intro H. exfalso. apply front_iff in F as [r F]. apply (H [] r). exact F.
    + split; auto. intros _ a b E. destruct a; [|discriminate].
      assert (front n [] = true) by (apply front_iff; eauto). congruence.
  - destruct (front n (x :: l)) eqn:F.
    + split; [discriminate|]. intro H. exfalso. apply front_iff in F as [r F]. apply (H [] r). exact F.
    + split.
      * intros E a b X. destruct (memmem n l) eqn:M; [discriminate|].
        destruct a as [|y a].
        { assert (front n (x :: l) = true) by (apply front_iff; eauto). congruence. }
        injection X as -> X. exact (proj1 IH eq_refl _ _ X).
      * intro H. destruct (memmem n l) as [k|] eqn:M; auto. exfalso.
        apply memmem_some in M as (a & b & -> & _). apply (H (x :: a) b). reflexivity.
Qed.

Lemma strchr_some : forall c l k, strchr c l = Some k ->
  exists a b, l = a ++ c :: b /\ length a = k /\ ~ In c a.
Proof.
  intros c. induction l as [|x l IH]; intros k E; cbn [strchr] in E; [discriminate|].
  destruct (N.eqb_spec x c) as [->|N].
  - injection E as <-. exists [], l. cbn. auto.
  - destruct (strchr c l) as [j|] eqn:M; [|discriminate]. injection E as <-.
    destruct (IH _ eq_refl) as (a & b & -> & L & H). exists (x :: a), b. cbn. repeat split; auto.
    intros [X|X]; auto.
Qed.
Lemma strchr_at : forall c a b, ~ In c a -> strchr c (a ++ c :: b) = Some (length a).
Proof.
  intros c. induction a as [|x a IH]; intros b H; cbn [strchr app].
  - rewrite N.eqb_refl. reflexivity.
  - destruct (N.eqb_spec x c) as [->|N]. { exfalso. apply H. left. reflexivity. }
    rewrite IH; auto. intro X. apply H. right. exact X.
Qed.
Lemma strchr_none : forall c l, ~ In c l -> strchr c l = None.
Proof.
  intros c. induction l as [|x l IH]; intro H; cbn [strchr]; auto.
  destruct (N.eqb_spec x c) as [->|N]. { exfalso. apply H. left. reflexivity. }
  rewrite IH; auto. intro X. apply H. right. exact X.
Qed.
Lemma strchr_none_in : forall c l, strchr c l = None -> ~ In c l.
Proof.
  intros c l E H. apply in_split in H as (a & b & ->).
  destruct (in_dec N.eq_dec c a) as [I|I].
  - assert (forall l r, In c l -> strchr c (l ++ r) <> None) as X.
    { clear. induction l as [|x l IH]; intros r H; [destruct H|]. destruct H as [->|H]; cbn [strchr app].
      - cbn. rewrite N.eqb_refl. discriminate.
      - destruct (N.eqb x c); [discriminate|]. specialize (IH r H). destruct (strchr c (l ++ r)); cbn; congruence. }
    exact (X a (c :: b) I E).
  - rewrite strchr_at in E by auto. discriminate.
Qed.

Lemma firstn_exact : forall (A : Type) (a b : list A), firstn (length a) (a ++ b) = a.
Proof. intros. rewrite firstn_app, Nat.sub_diag, firstn_all. cbn. apply app_nil_r. Qed.
Lemma skipn_exact : forall (A : Type) (a b : list A), skipn (length a) (a ++ b) = b.
Proof. intros. rewrite skipn_app, Nat.sub_diag, skipn_all. reflexivity. Qed.
Lemma skipn_exact_S : forall (A : Type) (a : list A) x b, skipn (S (length a)) (a ++ x :: b) = b.
Proof.
  intros. replace (a ++ x :: b) with ((a ++ [x]) ++ b) by (rewrite <- app_assoc; reflexivity).
  replace (S (length a)) with (length (a ++ [x])) by (rewrite app_length; cbn; lia). apply skipn_exact.
Qed.

(** * URL decoding *)

Lemma hex_value : forall v c, (v < 16)%N -> is_hex v c -> hex c = Some v.
Proof.
  intros v c H [[A ->]|[[A ->]|[A ->]]]; unfold hex.
  - replace ((48 <=? 48 + v)%N && (48 + v <=? 57)%N)%bool with true by lia. f_equal. lia.
  - replace ((48 <=? 97 + (v - 10))%N && (97 + (v - 10) <=? 57)%N)%bool with false by lia.
    replace ((97 <=? 97 + (v - 10))%N && (97 + (v - 10) <=? 102)%N)%bool with true by lia. f_equal. lia.
  - replace ((48 <=? 65 + (v - 10))%N && (65 + (v - 10) <=? 57)%N)%bool with false by lia.
    replace ((97 <=? 65 + (v - 10))%N && (65 + (v - 10) <=? 102)%N)%bool with false by lia.
    replace ((65 <=? 65 + (v - 10))%N && (65 + (v - 10) <=? 70)%N)%bool with true by lia. f_equal. lia.
Qed.
Lemma hex_is_hex : forall c v, hex c = Some v -> (v < 16)%N /\ is_hex v c.
Proof.
  intros c v. unfold hex, is_hex.
  destruct ((48 <=? c)%N && (c <=? 57)%N)%bool eqn:A; [intro E; injection E as <-; lia|].
  destruct ((97 <=? c)%N && (c <=? 102)%N)%bool eqn:B; [intro E; injection E as <-; lia|].
  destruct ((65 <=? c)%N && (c <=? 70)%N)%bool eqn:C; [intro E; injection E as <-; lia|]. discriminate.
Qed.
Lemma lor_byte : forall x y, (x < 16)%N -> (y < 16)%N -> N.lor (N.shiftl x 4) y = (16 * x + y)%N.
Proof.
  intros x y A B. rewrite <- N.lxor_lor, <- N.add_nocarry_lxor.
  - rewrite N.shiftl_mul_pow2. change (2 ^ 4)%N with 16%N. lia.
  - apply N.bits_inj. intro n. rewrite N.land_spec, N.bits_0.
    destruct (N.lt_ge_cases n 4) as [L|L].
    + rewrite N.shiftl_spec_low by exact L. reflexivity.
    + replace (N.testbit y n) with false. { apply andb_false_r. }
      symmetry. destruct (N.eq_dec y 0) as [->|Y]; [apply N.bits_0|].
      apply N.bits_above_log2. apply N.log2_lt_pow2; [lia|].
      apply N.lt_le_trans with (2 ^ 4)%N; [exact B|]. apply N.pow_le_mono_r; lia.
  - apply N.bits_inj. intro n. rewrite N.land_spec, N.bits_0.
    destruct (N.lt_ge_cases n 4) as [L|L].
    + rewrite N.shiftl_spec_low by exact L. reflexivity.
    + replace (N.testbit y n) with false. { apply andb_false_r. }
      symmetry. destruct (N.eq_dec y 0) as [->|Y]; [apply N.bits_0|].
      apply N.bits_above_log2. apply N.log2_lt_pow2; [lia|].
      apply N.lt_le_trans with (2 ^ 4)%N; [exact B|]. apply N.pow_le_mono_r; lia.
Qed.

Lemma urldecode_cons : forall c r, c <> 37%N -> urldecode (c :: r) = (if N.eqb c 43 then 32%N else c) :: urldecode r.
Proof. intros. cbn [urldecode]. destruct (N.eqb_spec c 37); [contradiction|reflexivity]. Qed.

Lemma urldecode_encodes : forall s w, encodes s w -> urldecode w = s.
Proof.
  induction 1 as [|c s w A B E IH|s w E IH|hi lo a b s w A B Ha Hb E IH].
  - reflexivity.
  - rewrite urldecode_cons by auto. destruct (N.eqb_spec c 43); [contradiction|]. congruence.
  - rewrite urldecode_cons by discriminate. cbn. congruence.
  - cbn [urldecode]. cbn [N.eqb Pos.eqb]. rewrite (hex_value _ _ A Ha), (hex_value _ _ B Hb), IH, lor_byte by auto.
    reflexivity.
Qed.

Lemma upto_nul_clean : forall l, clean l -> upto_nul l = l.
Proof.
  unfold clean. induction l as [|x l IH]; intro H; cbn [upto_nul]; auto.
  destruct (N.eqb_spec x 0) as [->|N]. { exfalso. apply H. left. reflexivity. }
  rewrite IH; auto. intro X. apply H. right. exact X.
Qed.

(** * Query strings *)

Lemma strtok_piece : forall w acc r, ~ In 38%N w -> strtok (w ++ r) acc = strtok r (acc ++ w).
Proof.
  induction w as [|x w IH]; intros acc r H; cbn [strtok app].
  - rewrite app_nil_r. reflexivity.
  - destruct (N.eqb_spec x 38) as [->|N]. { exfalso. apply H. left. reflexivity. }
    rewrite IH. { rewrite <- app_assoc. reflexivity. } intro X. apply H. right. exact X.
Qed.
Lemma strtok_last : forall w, ~ In 38%N w -> w <> [] -> strtok w [] = [w].
Proof.
  intros w H Ne. rewrite <- (app_nil_r w) at 1. rewrite strtok_piece by exact H. cbn.
  destruct w; [contradiction|reflexivity].
Qed.
Lemma strtok_cons : forall w q, ~ In 38%N w -> w <> [] -> strtok (w ++ 38%N :: q) [] = w :: strtok q [].
Proof.
  intros w q H Ne. rewrite strtok_piece by exact H. cbn [app strtok]. cbn [N.eqb Pos.eqb].
  destruct w; [contradiction|reflexivity].
Qed.

Lemma piece_text : forall p w, piece p w -> ~ In 38%N w /\ w <> [].
Proof.
  destruct 1 as [k w E A B C|k v w x E A B Ev C].
  - auto.
  - split. + rewrite in_app_iff. cbn. intros [H|[H|H]]; auto. discriminate.
    + destruct w; discriminate.
Qed.
Lemma param_piece : forall t p w, piece p w -> nul_free p -> param t w = qstore t (fst p) (snd p).
Proof.
  intros t p w H [C1 C2]. destruct H as [k w E A B C|k v w x E A B Ev C]; cbn [fst snd] in *; unfold param.
  - rewrite strchr_none by auto. rewrite (urldecode_encodes _ _ E), upto_nul_clean by auto. reflexivity.
  - rewrite strchr_at by auto. rewrite firstn_exact, skipn_exact_S.
    rewrite (urldecode_encodes _ _ E), (urldecode_encodes _ _ Ev), !upto_nul_clean by auto. reflexivity.
Qed.
Definition store_all (t : params) (ps : list (bytes * option bytes)) : params :=
  fold_left (fun t p => qstore t (fst p) (snd p)) ps t.
Lemma query_params : forall ps q, query ps q -> Forall nul_free ps ->
  forall t, fold_left param (strtok q []) t = store_all t ps.
Proof.
  induction 1 as [|ps q Q IH|p w P|p ps w q P Q IH]; intros F t.
  - reflexivity.
  - cbn [strtok]. cbn [N.eqb Pos.eqb]. apply IH. exact F.
  - destruct (piece_text _ _ P) as [A B]. rewrite strtok_last by auto. cbn [fold_left].
    rewrite (param_piece _ _ _ P) by (inversion F; auto). reflexivity.
  - destruct (piece_text _ _ P) as [A B]. rewrite strtok_cons by auto. cbn [fold_left].
    inversion F; subst. rewrite (param_piece _ _ _ P) by auto. rewrite IH by auto. reflexivity.
Qed.

Lemma qget_app : forall t u k, qget (t ++ u) k = match qget t k with Some v => Some v | None => qget u k end.
Proof.
  induction t as [|[k' v] t IH]; intros u k; cbn [qget app]; auto. destruct (beq k' k); auto.
Qed.
Lemma qget_store : forall t k v k', qget (qstore t k v) k' =
  match qget t k' with Some x => Some x | None => if beq k k' then Some v else None end.
Proof.
  intros. unfold qstore. destruct (qget t k) eqn:G.
  - destruct (qget t k') eqn:G'; auto. destruct (beq k k') eqn:B; auto. apply beq_eq in B. congruence.
  - rewrite qget_app. cbn [qget]. destruct (qget t k'); auto.
Qed.
Fixpoint assoc (ps : list (bytes * option bytes)) (k : bytes) : option (option bytes) :=
  match ps with
  | [] => None
  | p :: r => if beq (fst p) k then Some (snd p) else assoc r k
  end.
Lemma qget_all : forall ps t k, qget (store_all t ps) k =
  match qget t k with Some x => Some x | None => assoc ps k end.
Proof.
  induction ps as [|p ps IH]; intros t k; cbn.
  - destruct (qget t k); auto.
  - unfold store_all in IH. rewrite IH, qget_store. destruct (qget t k); auto. destruct (beq (fst p) k); auto.
Qed.
Lemma assoc_first : forall k ps v, first_value k ps v ->
  match assoc ps k with Some x => x | None => None end = v.
Proof.
  intros k ps v H. destruct H as [ps H|a v b H].
  - replace (assoc ps k) with (@None (option bytes)); auto. symmetry. induction ps as [|[k' v] ps IH]; auto. cbn.
    destruct (beq k' k) eqn:B. + apply beq_eq in B as ->. exfalso. apply (H v). left. reflexivity.
    + apply IH. intros v' I. apply (H v'). right. exact I.
  - induction a as [|[k' v'] a IH]; cbn.
    + rewrite beq_refl. reflexivity.
    + destruct (beq k' k) eqn:B. * apply beq_eq in B as ->. exfalso. apply (H v'). left. reflexivity.
      * apply IH. intros v'' I. apply (H v''). right. exact I.
Qed.

Lemma uri_params : forall path w ps q,
  encodes path w -> ~ In 63%N w -> clean path -> query ps q -> Forall nul_free ps ->
  exists t, process_uri (w ++ 63%N :: q) = (path, Some q, t)
    /\ (forall k v, first_value k ps v -> querystring t k = v)
    /\ (forall k, qget t k <> None <-> exists v, In (k, v) ps).
Proof.
  intros path w ps q E N C Q F. unfold process_uri. rewrite strchr_at by auto.
  rewrite firstn_exact, skipn_exact_S, (urldecode_encodes _ _ E), upto_nul_clean by auto.
  rewrite (query_params _ _ Q F). eexists. split; [reflexivity|]. split.
  - intros k v H. unfold querystring. rewrite qget_all. cbn [qget]. apply assoc_first. exact H.
  - intro k. rewrite qget_all. cbn [qget]. clear. induction ps as [|[k' v] ps IH]; cbn.
    + split; [congruence|]. intros [v []].
    + destruct (beq k' k) eqn:B.
      * apply beq_eq in B as ->. split; [|discriminate]. intros _. exists v. left. reflexivity.
      * rewrite IH. apply beq_neq in B. split; intros [v' I]; exists v'.
        { right. exact I. } destruct I as [I|I]; auto. congruence.
Qed.
Lemma uri_plain : forall path w, encodes path w -> ~ In 63%N w -> clean path ->
  process_uri w = (path, None, []).
Proof.
  intros path w E N C. unfold process_uri. rewrite strchr_none by auto.
  rewrite (urldecode_encodes _ _ E), upto_nul_clean by auto. reflexivity.
Qed.
(** every text *)
Lemma urldecode_means : forall n w, length w <= n -> means (urldecode w) w.
Proof.
  induction n as [|n IH]; intros w L.
  - destruct w; [constructor|cbn in L; lia].
  - destruct w as [|c r]; [constructor|]. cbn in L.
    destruct (N.eq_dec c 37) as [->|N].
    + destruct r as [|a r]. { apply mean_stray; [|constructor]. intros (? & ? & ? & ? & ? & X & _). discriminate. }
      destruct r as [|b r].
      { change (urldecode [37%N; a]) with (37%N :: urldecode [a]).
        apply mean_stray; [|apply IH; cbn in *; lia]. intros (? & ? & ? & ? & ? & X & _). discriminate. }
      change (urldecode (37%N :: a :: b :: r)) with
        (match hex a, hex b with
         | Some x, Some y => N.lor (N.shiftl x 4) y :: urldecode r
         | _, _ => 37%N :: urldecode (a :: b :: r) end).
      destruct (hex a) as [x|] eqn:Ha.
      * destruct (hex b) as [y|] eqn:Hb.
        -- apply hex_is_hex in Ha as [A1 A2]. apply hex_is_hex in Hb as [B1 B2].
           rewrite lor_byte by auto. apply mean_hex; auto. apply IH. cbn in L. lia.
        -- apply mean_stray; [|apply IH; cbn in *; lia].
           intros (hi & lo & a' & b' & r' & X & A & B & C & D). injection X as <- <- <-.
           rewrite (hex_value _ _ B D) in Hb. discriminate.
      * apply mean_stray; [|apply IH; cbn in *; lia].
        intros (hi & lo & a' & b' & r' & X & A & B & C & D). injection X as <- <- <-.
        rewrite (hex_value _ _ A C) in Ha. discriminate.
    + rewrite urldecode_cons by auto. destruct (N.eqb_spec c 43) as [->|M].
      * apply mean_plus. apply IH. lia.
      * apply mean_self; auto. apply IH. lia.
Qed.
Lemma is_hex_fun : forall v v' c, (v < 16)%N -> (v' < 16)%N -> is_hex v c -> is_hex v' c -> v = v'.
Proof. intros v v' c A B C D. apply hex_value in C; auto. apply hex_value in D; auto. congruence. Qed.
Lemma means_fun : forall s w, means s w -> forall s', means s' w -> s = s'.
Proof.
  induction 1 as [|c s w A B M IH|s w M IH|hi lo a b s w A B Ha Hb M IH|s w T M IH]; intros s' H; inversion H; subst;
    try congruence; try (f_equal; auto; fail).
  - match goal with X : is_hex ?u a, Y : is_hex ?v b |- _ =>
      rewrite (is_hex_fun hi u a), (is_hex_fun lo v b) by auto end. f_equal. auto.
  - exfalso. match goal with T : ~ two_digits _ |- _ => apply T end. exists hi, lo, a, b, w. auto.
  - exfalso. apply T. match goal with X : is_hex ?u ?a, Y : is_hex ?v ?b |- two_digits (?a :: ?b :: ?w) =>
      exists u, v, a, b, w end. auto.
Qed.
