(** Proofs about the HTTP/1 body reader. *)
From Coq Require Import NArith ZArith List Bool Lia ZifyBool ZifyNat ZifyN.
From Verif Require Import Http1.Model Http1.Spec.
Import ListNotations.
Local Open Scope N_scope.

Definition obuf (h : option bchain) : list N :=
  match h with Some b => bdata b | None => [] end.
Definition bok (b : bchain) : Prop := bstart b + len (bdata b) <= ballocd b.
Definition ook (h : option bchain) : Prop :=
  match h with Some b => bok b | None => True end.

Lemma len_app : forall a b, len (a ++ b) = len a + len b.
Proof. intros. unfold len. rewrite app_length. lia. Qed.

(** ** Hexadecimal *)
Lemma digit_ok : forall c v, hexdigit c v -> digit c = Some v.
Proof.
  intros c v H. unfold digit.
  destruct H as [[H ->]|[[H ->]|[H ->]]].
  - replace (48 <=? 48 + v) with true by lia. replace (48 + v <=? 57) with true by lia.
    cbn [andb]. f_equal. lia.
  - replace (87 + v <=? 57) with false by lia. rewrite andb_false_r.
    replace (97 <=? 87 + v) with true by lia. replace (87 + v <=? 102) with true by lia.
    cbn [andb]. f_equal. lia.
  - replace (55 + v <=? 57) with false by lia. rewrite andb_false_r.
    replace (97 <=? 55 + v) with false by lia.
    replace (65 <=? 55 + v) with true by lia. replace (55 + v <=? 70) with true by lia.
    cbn [andb]. f_equal. lia.
Qed.

Lemma hexdigit_lt : forall c v, hexdigit c v -> v < 16 /\ c <> 13.
Proof. intros c v H. unfold hexdigit in H. lia. Qed.

Lemma hexnum_no_cr : forall s n, hexnum s n -> ~ In 13 s.
Proof.
  induction 1.
  - intros [E|[]]. apply hexdigit_lt in H. lia.
  - intros I. apply in_app_or in I. destruct I as [I|[E|[]]]; [auto|].
    apply hexdigit_lt in H0. lia.
Qed.

Lemma size_loop_app : forall a b c,
  size_loop (a ++ b) c = match size_loop a c with Some x => size_loop b x | None => None end.
Proof.
  induction a; intros; cbn; auto. destruct (digit a); auto.
Qed.

Lemma lor_add16 : forall n v, v < 16 -> N.lor (16 * n) v = 16 * n + v.
Proof.
  intros n v H.
  assert (A : N.land (16 * n) v = 0).
  { apply N.bits_inj_0. intros i. rewrite N.land_spec.
    destruct (N.ltb_spec i 4).
    - change 16 with (2 ^ 4). rewrite N.mul_comm, N.mul_pow2_bits_low; auto.
    - replace (N.testbit v i) with false; [apply andb_false_r|].
      symmetry. destruct (N.eq_dec v 0) as [->|]; [apply N.bits_0|].
      apply N.bits_above_log2. apply N.log2_lt_pow2; [lia|].
      apply N.lt_le_trans with (2 ^ 4); [exact H|]. apply N.pow_le_mono_r; lia. }
  rewrite <- N.lxor_lor by exact A. symmetry. apply N.add_nocarry_lxor. exact A.
Qed.

Lemma shl4 : forall n, N.shiftl n 4 = 16 * n.
Proof. intros. rewrite N.shiftl_mul_pow2. change (2 ^ 4) with 16. lia. Qed.

Lemma size_loop_hex : forall s n, hexnum s n -> n < 2 ^ 32 -> size_loop s 0 = Some n.
Proof.
  induction 1; intros.
  - cbn. rewrite (digit_ok _ _ H). reflexivity.
  - pose proof (hexdigit_lt _ _ H0) as [L _].
    rewrite size_loop_app, IHhexnum by lia. cbn [size_loop].
    rewrite (digit_ok _ _ H0). rewrite shl4. unfold w32.
    rewrite N.mod_small by lia. rewrite lor_add16 by exact L. reflexivity.
Qed.

(** ** Finding the size line *)
Lemma find_crlf_prefix : forall s data u t,
  ~ In 13 s -> data ++ u = s ++ 13 :: 10 :: t ->
  (find_crlf data = Some (length s)
   /\ exists d', data = s ++ 13 :: 10 :: d' /\ d' ++ u = t)
  \/ (find_crlf data = None /\ (length data <= length s + 1)%nat).
Proof.
  induction s as [|c s IH]; intros data u t N E.
  - destruct data as [|x [|y data]].
    + right. split; [reflexivity|cbn; lia].
    + right. split; [reflexivity|cbn; lia].
    + cbn in E. inversion E; subst. left. split; [reflexivity|].
      exists data. split; reflexivity.
  - destruct data as [|x data].
    + right. split; [reflexivity|cbn; lia].
    + cbn in E. injection E as E0 E1. subst x.
      destruct (IH data u t) as [[F (d' & D1 & D2)]|[F L]].
      * intros I. apply N. right. exact I.
      * exact E1.
      * left. split.
        { destruct data as [|y data']; [cbn in F; discriminate|].
          change (find_crlf (c :: y :: data')) with
            (if (c =? 13) && (y =? 10) then Some O else option_map S (find_crlf (y :: data'))).
          replace (c =? 13) with false
            by (symmetry; apply N.eqb_neq; intros ->; apply N; left; reflexivity).
          cbn [andb]. rewrite F. reflexivity. }
        { exists d'. subst data. split; reflexivity || exact D2. }
      * right. split; [|cbn; lia].
        destruct data as [|y data']; [reflexivity|].
        change (find_crlf (c :: y :: data')) with
          (if (c =? 13) && (y =? 10) then Some O else option_map S (find_crlf (y :: data'))).
        replace (c =? 13) with false
          by (symmetry; apply N.eqb_neq; intros ->; apply N; left; reflexivity).
        cbn [andb]. rewrite F. reflexivity.
Qed.

(** ** The blocks *)
Lemma ready_head_ok : forall h, ook h ->
  bdata (ready_head h) = obuf h /\ bok (ready_head h)
  /\ 20 <= ballocd (ready_head h) - bstart (ready_head h).
Proof.
  intros h O. unfold ready_head.
  set (b := match h with Some b => b | None => _ end).
  assert (B : bdata b = obuf h /\ bok b).
  { destruct h; subst b; cbn; split; auto. unfold bok. cbn. lia. }
  destruct B as [B1 B2]. clearbody b. unfold bok, MAX_CHUNK_HEADER_SIZE, DEFAULT_BCHAINSIZE in *.
  destruct (ballocd b - bstart b <? 20) eqn:E; [destruct (20 <=? ballocd b) eqn:F|]; cbn [bdata bstart ballocd].
  - split; [exact B1|]. lia.
  - split; [exact B1|]. lia.
  - split; [exact B1|]. lia.
Qed.

Lemma fit_head_ok : forall b need, bok b ->
  bdata (fit_head b need) = bdata b
  /\ (len (bdata b) < need -> bok (fit_head b need)
      /\ bstart (fit_head b need) + need <= ballocd (fit_head b need)).
Proof.
  intros b need O. unfold fit_head, bok, DEFAULT_BCHAINSIZE in *.
  destruct (ballocd b - bstart b <? need) eqn:E; cbn [bdata bstart ballocd].
  - split; [reflexivity|]. lia.
  - split; [reflexivity|]. lia.
Qed.

Definition advances (s s' : sock) : Prop :=
  (exists pre, answers s = pre ++ answers s')
  /\ (length (unread s') + length (answers s) <= length (unread s) + length (answers s'))%nat.

Lemma advances_refl : forall s, advances s s.
Proof. intros. split; [exists []; reflexivity|lia]. Qed.

Definition starved (s : sock) : Prop :=
  In Again (answers s) \/ (length (answers s) < length (unread s))%nat.

Lemma obuf_drop : forall st d al, obuf (drop_empty (mkb st d al)) = d.
Proof. intros. unfold drop_empty. cbn. destruct d; reflexivity. Qed.

Lemma ook_drop : forall b, bok b -> ook (drop_empty b).
Proof. intros [st d al] H. unfold drop_empty. cbn. destruct d; [exact I|exact H]. Qed.

Lemma to_int_pos : forall n, n < 2 ^ 31 -> to_int n = Z.of_N n.
Proof. intros. unfold to_int. replace (n <? 2 ^ 31) with true by lia. reflexivity. Qed.

(** Outcome of reading one chunk. *)
Definition one_result (w0 w d : list N) (ud : list (list N)) (pc : bool) (s : sock) (c : cout) : Prop :=
  (exists b s', c = Ret (-1) true (Some b) ud pc s' /\ bdata b ++ unread s' = w0
     /\ bok b /\ starved s /\ exists pre, answers s = pre ++ answers s')
  \/ (exists fi s', c = Ret (Z.of_N (len d)) false fi
        (match d with [] => ud | _ => ud ++ [d] end)
        (match d with [] => true | _ => pc end) s'
      /\ obuf fi ++ unread s' = w /\ ook fi /\ advances s s').

Lemma finish_ok : forall d w x b ud pc s,
  len d < 2 ^ 31 -> bok b -> bdata b = d ++ crlf ++ x -> x ++ unread s = w ->
  exists fi, finish_chunk (Z.of_N (len d)) b ud pc s
    = Ret (Z.of_N (len d)) false fi (match d with [] => ud | _ => ud ++ [d] end)
          (match d with [] => true | _ => pc end) s
    /\ obuf fi = x /\ ook fi.
Proof.
  intros d w x b ud pc s L O D E. unfold finish_chunk.
  destruct d as [|c d0].
  - cbn [len length]. change (Z.of_N (N.of_nat 0)) with 0%Z. cbn [Z.ltb Z.compare Z.eqb].
    assert (L2 : len (bdata b) <? 2 = false).
    { rewrite D. unfold len. cbn [crlf app length]. lia. }
    rewrite L2. eexists. split; [reflexivity|].
    rewrite D. cbn [skipn app crlf]. split; [apply obuf_drop|].
    apply ook_drop. unfold bok in *. cbn [bstart bdata ballocd].
    rewrite D in O. cbn [app] in O. unfold crlf in O. unfold len in *.
    rewrite app_length in O. cbn [length] in O. lia.
  - set (d := c :: d0) in *.
    assert (P : 0 < len d) by (unfold len, d; cbn [length]; lia).
    replace (0 <? Z.of_N (len d))%Z with true by lia.
    rewrite N2Z.id. cbn [bstart bdata ballocd].
    assert (M : N.min (len (bdata b)) (len d) = len d).
    { rewrite D, len_app. lia. }
    rewrite M. assert (T : N.to_nat (len d) = length d) by (unfold len; lia).
    rewrite T, D.
    assert (F : firstn (length d) (d ++ crlf ++ x) = d).
    { rewrite firstn_app, Nat.sub_diag, firstn_O, firstn_all, app_nil_r. reflexivity. }
    assert (G : skipn (length d) (d ++ crlf ++ x) = 13 :: 10 :: x).
    { rewrite skipn_app, Nat.sub_diag, skipn_all. reflexivity. }
    rewrite F, G. cbv iota.
    eexists. split; [reflexivity|]. split; [apply obuf_drop|].
    apply ook_drop. unfold bok in *. cbn [bstart bdata ballocd].
    rewrite D, !len_app in O. cbn [crlf] in O. unfold len in *. unfold crlf in O. cbn [length] in O. lia.
Qed.

Lemma min_take : forall n room l, 0 < room -> l <> [] ->
  let k := N.to_nat (N.min (N.min (n + 1) room) (len l)) in
  (0 < k)%nat /\ (k <= length l)%nat /\ N.of_nat k <= room.
Proof.
  intros n room l R L. unfold len. destruct l; [congruence|]. cbn [length]. lia.
Qed.

Lemma pull_ok : forall w0 w d ud pc again b s,
  bok b -> bstart b + len (bdata b) < ballocd b ->
  bdata b ++ unread s = w0 -> unread s <> [] -> ~ In Closed (answers s) ->
  (forall a l b' s', answers s = a :: l -> answers s' = l -> bok b' -> bdata b' ++ unread s' = w0 ->
     one_result w0 w d ud pc s' (again b' s')) ->
  one_result w0 w d ud pc s (pull again b ud pc s).
Proof.
  intros w0 w d ud pc again b s O R E U NC IH.
  unfold pull. replace (ballocd b <=? bstart b + len (bdata b)) with false by lia.
  destruct (answers s) as [|a l] eqn:A.
  - left. exists b, s. split; [reflexivity|]. split; [exact E|]. split; [exact O|].
    split; [|exists []; reflexivity].
    right. rewrite A. destruct (unread s); [congruence|cbn; lia].
  - destruct a as [n| |].
    + destruct (unread s) as [|u0 us] eqn:Q; [congruence|]. rewrite <- Q in *.
      set (k := N.to_nat _).
      destruct (min_take n (ballocd b - len (bdata b) - bstart b) (unread s)) as (K1 & K2 & K3);
        [lia|exact U|]. fold k in K1, K2, K3.
      assert (R1 := IH (Ready n) l
        (mkb (bstart b) (bdata b ++ firstn k (unread s)) (ballocd b))
        (mksock (skipn k (unread s)) l) eq_refl eq_refl).
      assert (LK : length (firstn k (unread s)) = k) by (apply firstn_length_le; exact K2).
      assert (SK : length (skipn k (unread s)) = (length (unread s) - k)%nat) by apply skipn_length.
      destruct R1 as [(b1 & s1 & C & D1 & D2 & D3 & pre & D4)|(fi & s1 & C & D1 & D2 & D3)].
      * unfold bok in *. cbn [bstart bdata ballocd]. unfold len in *. rewrite app_length, LK. lia.
      * cbn [bdata unread]. rewrite <- app_assoc, firstn_skipn. exact E.
      * left. exists b1, s1. split; [exact C|]. split; [exact D1|]. split; [exact D2|].
        split.
        { destruct D3 as [D3|D3]; cbn [answers unread] in D3.
          - left. rewrite A. right. exact D3.
          - right. rewrite A. cbn [length]. lia. }
        { exists (Ready n :: pre). cbn [answers] in D4. rewrite A, D4. reflexivity. }
      * right. exists fi, s1. split; [exact C|]. split; [exact D1|]. split; [exact D2|].
        destruct D3 as [(pre & P) Q3]. cbn [answers unread] in P, Q3. split.
        { exists (Ready n :: pre). rewrite A, P. reflexivity. }
        { rewrite A. cbn [length]. lia. }
    + left. exists b, (mksock (unread s) l). split; [reflexivity|]. split; [exact E|].
      split; [exact O|]. split; [left; rewrite A; left; reflexivity|exists [Again]; rewrite A; reflexivity].
    + exfalso. apply NC. left. reflexivity.
Qed.

Lemma chunk_step_ok : forall zs d w ud pc again h s,
  hexnum zs (len d) -> (length zs <= 18)%nat -> len d < 2 ^ 31 ->
  ook h -> obuf h ++ unread s = zs ++ crlf ++ d ++ crlf ++ w ->
  ~ In Closed (answers s) ->
  (forall a l b' s', answers s = a :: l -> answers s' = l -> bok b' ->
     bdata b' ++ unread s' = zs ++ crlf ++ d ++ crlf ++ w ->
     one_result (zs ++ crlf ++ d ++ crlf ++ w) w d ud pc s' (again b' s')) ->
  one_result (zs ++ crlf ++ d ++ crlf ++ w) w d ud pc s (chunk_step again h ud pc s).
Proof.
  intros zs d w ud pc again h s HX HZ HD O E NC IH.
  unfold chunk_step.
  destruct (ready_head_ok h O) as (B1 & B2 & B3).
  set (b := ready_head h) in *. clearbody b. rewrite <- B1 in E.
  pose proof (hexnum_no_cr _ _ HX) as NR.
  destruct (find_crlf_prefix zs (bdata b) (unread s) (d ++ crlf ++ w) NR) as [[F (x & X1 & X2)]|[F L]].
  { rewrite E. reflexivity. }
  - rewrite F.
    assert (FN : firstn (length zs) (bdata b) = zs).
    { rewrite X1, firstn_app, Nat.sub_diag, firstn_O, firstn_all, app_nil_r. reflexivity. }
    rewrite FN. rewrite (size_loop_hex _ _ HX) by lia.
    assert (ND : w32 (len d + w32 (N.of_nat (length zs) + 4)) = len d + (N.of_nat (length zs) + 4)).
    { unfold w32. rewrite (N.mod_small (N.of_nat (length zs) + 4)) by lia.
      apply N.mod_small. lia. }
    rewrite ND. set (need := len d + (N.of_nat (length zs) + 4)) in *.
    assert (LB : len (bdata b) = N.of_nat (length zs) + 2 + len x).
    { rewrite X1. unfold len. rewrite app_length. cbn [length]. lia. }
    destruct (need <=? len (bdata b)) eqn:C.
    + right. rewrite to_int_pos by exact HD.
      assert (LX : (length d + 2 <= length x)%nat) by (unfold len in *; lia).
      assert (XE : exists y, x = d ++ crlf ++ y /\ y ++ unread s = w).
      { exists (skipn (length d + 2) x).
        assert (Q : x = firstn (length d + 2) (x ++ unread s) ++ skipn (length d + 2) x).
        { rewrite firstn_app. replace (length d + 2 - length x)%nat with 0%nat by lia.
          rewrite firstn_O, app_nil_r, firstn_skipn. reflexivity. }
        rewrite X2 in Q.
        assert (Q2 : firstn (length d + 2) (d ++ crlf ++ w) = d ++ crlf).
        { rewrite firstn_app. rewrite firstn_all2 by lia.
          replace (length d + 2 - length d)%nat with 2%nat by lia. reflexivity. }
        rewrite Q2 in Q. split.
        - rewrite Q at 1. rewrite <- app_assoc. reflexivity.
        - assert (Q3 : skipn (length d + 2) (x ++ unread s) = w).
          { rewrite X2, app_assoc. rewrite skipn_app.
            rewrite skipn_all2 by (rewrite app_length; cbn; lia).
            replace (length d + 2 - length (d ++ crlf))%nat with 0%nat
              by (rewrite app_length; cbn; lia). reflexivity. }
          rewrite skipn_app in Q3. replace (length d + 2 - length x)%nat with 0%nat in Q3 by lia.
          exact Q3. }
      destruct XE as (y & Y1 & Y2).
      destruct (finish_ok d w y
        (mkb (bstart b + N.of_nat (length zs) + 2) (skipn (length zs + 2) (bdata b)) (ballocd b))
        ud pc s HD) as (fi & G1 & G2 & G3).
      * unfold bok in *. cbn [bstart bdata ballocd]. unfold len in *. rewrite skipn_length. lia.
      * cbn [bdata]. rewrite X1, skipn_app.
        rewrite skipn_all2 by lia. replace (length zs + 2 - length zs)%nat with 2%nat by lia.
        cbn [skipn app]. exact Y1.
      * exact Y2.
      * exists fi, s. split; [exact G1|]. split; [rewrite G2; exact Y2|].
        split; [exact G3|apply advances_refl].
    + destruct (fit_head_ok b need B2) as (H1 & H2).
      assert (C' : len (bdata b) < need) by lia.
      destruct (H2 C') as [H3 H4].
      apply pull_ok.
      * exact H3.
      * rewrite H1. lia.
      * rewrite H1. exact E.
      * intros Z. rewrite Z, app_nil_r in X2. rewrite X2 in LB.
        rewrite !len_app in LB. unfold len at 3 in LB. cbn [crlf length] in LB. unfold need in C'. lia.
      * exact NC.
      * exact IH.
  - rewrite F. apply pull_ok.
    + exact B2.
    + unfold len. unfold bok in B2. lia.
    + exact E.
    + intros Z. rewrite Z, app_nil_r in E. rewrite E in L. rewrite app_length in L.
      cbn [crlf app length] in L. lia.
    + exact NC.
    + exact IH.
Qed.

Lemma read_chunk_ok : forall zs d w ud pc,
  hexnum zs (len d) -> (length zs <= 18)%nat -> len d < 2 ^ 31 ->
  forall f h s, f = answers s ->
  ook h -> obuf h ++ unread s = zs ++ crlf ++ d ++ crlf ++ w ->
  ~ In Closed (answers s) ->
  one_result (zs ++ crlf ++ d ++ crlf ++ w) w d ud pc s (read_chunk f h ud pc s).
Proof.
  intros zs d w ud pc HX HZ HD.
  induction f as [|a f IH]; intros h s A O E NC; cbn [read_chunk]; apply chunk_step_ok; auto.
  - intros a l b' s' A'. rewrite <- A in A'. discriminate.
  - intros a' l b' s' A' A2 B' E'. rewrite <- A in A'. injection A' as -> ->.
    apply IH; auto. intros I. apply NC. rewrite <- A. right. rewrite <- A2. exact I.
Qed.

(** ** Delivery *)
Lemma fill_ok : forall ud n x r e, 0 < n -> Forall (fun b => b <> []) ud ->
  fill n ud = (x, r, e) ->
  concat ud = x ++ concat r /\ Forall (fun b => b <> []) r /\ len x <= n
  /\ (ud <> [] -> x <> []) /\ (e = false -> len x = n) /\ (e = true -> r = []).
Proof.
  induction ud as [|blk ud IH]; intros n x r e P F H.
  - cbn in H. injection H as <- <- <-. split; [reflexivity|]. split; [constructor|].
    split; [cbn; lia|]. split; [congruence|]. split; [discriminate|reflexivity].
  - inversion F as [|? ? F1 F2]; subst. cbn [fill] in H.
    destruct blk as [|c blk]; [congruence|].
    replace (n =? 0) with false in H by lia.
    set (bb := c :: blk) in *.
    set (k := N.to_nat (N.min (len bb) n)) in *.
    assert (LB : (0 < length bb)%nat) by (unfold bb; cbn; lia).
    assert (K : (0 < k <= length bb)%nat) by (unfold k, len; lia).
    assert (LF : length (firstn k bb) = k) by (apply firstn_length_le; lia).
    destruct (skipn k bb) as [|y tl] eqn:S.
    + assert (KL : k = length bb).
      { assert (length (skipn k bb) = 0%nat) by (rewrite S; reflexivity).
        rewrite skipn_length in H0. lia. }
      assert (FB : firstn k bb = bb) by (rewrite KL; apply firstn_all).
      destruct (fill (n - N.of_nat k) ud) as [[x1 r1] e1] eqn:Q.
      injection H as <- <- <-. rewrite FB.
      destruct (N.eq_dec (n - N.of_nat k) 0) as [Z|NZ].
      * rewrite Z in Q.
        assert (D : (x1, r1) = ([], ud) /\ (e1 = true -> ud = [])).
        { destruct ud as [|u us]; cbn in Q.
          - injection Q as <- <- <-. split; reflexivity.
          - inversion F2; subst. destruct u as [|u0 u]; [congruence|].
            injection Q as <- <- <-. split; [reflexivity|discriminate]. }
        destruct D as [D1 D2]. injection D1 as -> ->.
        rewrite app_nil_r. split; [reflexivity|]. split; [exact F2|].
        assert (LN : len bb = n) by (unfold k, len in *; lia).
        split; [lia|]. split; [intros _ E; rewrite E in LB; cbn in LB; lia|].
        split; [intros _; exact LN|exact D2].
      * destruct (IH (n - N.of_nat k) x1 r1 e1) as (A & B & C & D & E & G); [lia|exact F2|exact Q|].
        cbn [concat]. rewrite A, app_assoc. split; [reflexivity|]. split; [exact B|].
        rewrite len_app. split; [unfold len in *; lia|].
        split; [intros _ Z; apply app_eq_nil in Z; destruct Z as [Z _]; rewrite Z in LB; cbn in LB; lia|].
        split; [intros Z; specialize (E Z); unfold len in *; lia|exact G].
    + injection H as <- <- <-. cbn [concat]. split.
      { rewrite <- (firstn_skipn k bb) at 1. rewrite S, <- app_assoc. reflexivity. }
      split; [constructor; [discriminate|exact F2]|].
      assert (KN : N.of_nat k = n).
      { assert (length (skipn k bb) <> 0%nat) by (rewrite S; discriminate).
        rewrite skipn_length in H. unfold k, len in *. lia. }
      assert (LL : len (firstn k bb) = n) by (unfold len; lia).
      split; [lia|]. split; [intros _ Z; rewrite Z in LF; cbn in LF; lia|].
      split; [intros _; exact LL|discriminate].
Qed.

Lemma deliver_ok : forall r n o r', 0 < n -> Forall (fun b => b <> []) (user_data r) ->
  deliver r n = (o, r') ->
  first_input r' = first_input r /\ chunked r' = chunked r
  /\ read_last_chunk r' = read_last_chunk r
  /\ content_length r' = content_length r /\ content_length_read r' = content_length_read r
  /\ Forall (fun b => b <> []) (user_data r')
  /\ ((user_data r <> [] /\ exists x, o = Got x /\ x <> [] /\ len x <= n
          /\ concat (user_data r) = x ++ concat (user_data r'))
      \/ (user_data r = [] /\ o = nothing r /\ user_data r' = [])).
Proof.
  intros r n o r' P F H. unfold deliver in H.
  replace (n =? 0) with false in H by lia.
  destruct (user_data r) as [|blk ud] eqn:U.
  - cbn [has_data] in H. injection H as <- <-. cbn. repeat (split; [reflexivity|]).
    split; [constructor|]. right. repeat split; reflexivity.
  - inversion F as [|? ? F1 F2]; subst. destruct blk as [|c blk]; [congruence|].
    cbn [has_data] in H.
    destruct (fill n ((c :: blk) :: ud)) as [[x rr] e] eqn:Q.
    destruct (fill_ok _ _ _ _ _ P F Q) as (A & B & C & D & E & G).
    assert (T : e || (len x =? n) = true) by (destruct e; [reflexivity|rewrite E by reflexivity; cbn; lia]).
    rewrite T in H. injection H as <- <-. cbn [first_input chunked read_last_chunk content_length content_length_read user_data].
    repeat (split; [reflexivity|]). split; [exact B|]. left. split; [discriminate|].
    exists x. split; [reflexivity|]. split; [apply D; discriminate|]. split; [exact C|exact A].
Qed.

(** ** Chunked bodies *)
Definition CInv (body rest : list N) (r : req) (s : sock) : Prop :=
  chunked r = true /\ ook (first_input r) /\ Forall (fun b => b <> []) (user_data r)
  /\ ((read_last_chunk r = true /\ buffered r ++ unread s = rest /\ body = concat (user_data r))
      \/ (read_last_chunk r = false /\ exists ds wire, chunk_wire ds wire
            /\ buffered r ++ unread s = wire ++ rest
            /\ body = concat (user_data r) ++ concat ds)).

Lemma chunk_wire_head : forall ds wire, chunk_wire ds wire ->
  exists zs d w, wire = zs ++ crlf ++ d ++ crlf ++ w
    /\ hexnum zs (len d) /\ (length zs <= 18)%nat /\ len d < 2 ^ 31
    /\ ((ds = [] /\ d = [] /\ w = []) \/ (exists ds', ds = d :: ds' /\ d <> [] /\ chunk_wire ds' w)).
Proof.
  intros ds wire H. destruct H.
  - exists z, [], []. cbn [app]. rewrite app_nil_r. split; [reflexivity|].
    split; [exact H|]. split; [exact H0|]. split; [cbn; lia|]. left. auto.
  - exists s, d, w. split; [reflexivity|]. split; [exact H|]. split; [exact H1|].
    split; [exact H2|]. right. exists ds. auto.
Qed.

(** One call on a chunked body. *)
Definition consumed (body rest : list N) (s : sock) (n : N) (o : cons) (r' : req) (s' : sock) : Prop :=
  (exists pre, answers s = pre ++ answers s') /\
  ((exists x body', o = Got x /\ x <> [] /\ len x <= n /\ body = x ++ body'
      /\ CInv body' rest r' s' /\ advances s s')
   \/ (o = Wait /\ CInv body rest r' s' /\ starved s)
   \/ (o = Done /\ body = [] /\ read_last_chunk r' = true /\ CInv [] rest r' s' /\ advances s s')).

Lemma deliver_cinv : forall body rest r s0 s n o r',
  0 < n -> CInv body rest r s -> advances s0 s ->
  (read_last_chunk r = true \/ user_data r <> []) ->
  deliver r n = (o, r') -> consumed body rest s0 n o r' s.
Proof.
  intros body rest r s0 s n o r' P (C & O & F & I) A G H.
  destruct (deliver_ok r n o r' P F H) as (D1 & D2 & D3 & D4 & D5 & D6 & D7).
  split; [destruct A as [A _]; exact A|].
  assert (B : buffered r' = buffered r) by (unfold buffered; rewrite D1; reflexivity).
  destruct D7 as [(U & x & -> & X1 & X2 & X3)|(U & Ho & U')].
  - left. destruct I as [(L & E & Q)|(L & ds & wire & W & E & Q)].
    + exists x, (concat (user_data r')). split; [reflexivity|]. split; [exact X1|]. split; [exact X2|].
      split; [rewrite Q; exact X3|]. split; [|exact A].
      split; [congruence|]. split; [rewrite D1; exact O|]. split; [exact D6|].
      left. split; [congruence|]. split; [rewrite B; exact E|reflexivity].
    + exists x, (concat (user_data r') ++ concat ds). split; [reflexivity|]. split; [exact X1|].
      split; [exact X2|]. split; [rewrite Q, X3, <- app_assoc; reflexivity|]. split; [|exact A].
      split; [congruence|]. split; [rewrite D1; exact O|]. split; [exact D6|].
      right. split; [congruence|]. exists ds, wire. split; [exact W|]. split; [rewrite B; exact E|reflexivity].
  - destruct G as [G|G]; [|congruence].
    destruct I as [(L & E & Q)|(L & _)]; [|congruence].
    right. right. rewrite U in Q. cbn in Q. subst body.
    split; [subst o; unfold nothing; rewrite C, G; reflexivity|]. split; [reflexivity|].
    split; [congruence|]. split; [|exact A].
    split; [congruence|]. split; [rewrite D1; exact O|]. split; [exact D6|].
    left. split; [congruence|]. split; [rewrite B; exact E|rewrite U'; reflexivity].
Qed.

Lemma consume_chunked : forall body rest r s n o r' s',
  0 < n -> CInv body rest r s -> ~ In Closed (answers s) ->
  consume r s n = (o, r', s') -> consumed body rest s n o r' s'.
Proof.
  intros body rest r s n o r' s' P I NC H.
  pose proof I as (C & O & F & J). unfold consume in H. rewrite C in H.
  destruct J as [(L & E & Q)|(L & ds & wire & W & E & Q)]; rewrite L in H.
  - destruct (deliver r n) as [o1 r1] eqn:D. injection H as <- <- <-.
    apply (deliver_cinv body rest r s s n o1 r1 P I (advances_refl s)); auto.
  - destruct (chunk_wire_head _ _ W) as (zs & d & w & W1 & W2 & W3 & W4 & W5).
    assert (E' : obuf (first_input r) ++ unread s = zs ++ crlf ++ d ++ crlf ++ (w ++ rest)).
    { change (obuf (first_input r)) with (buffered r). rewrite E, W1.
      rewrite <- !app_assoc. reflexivity. }
    assert (R := read_chunk_ok zs d (w ++ rest) (user_data r) (payload_complete r)
                   W2 W3 W4 (answers s) (first_input r) s eq_refl O E' NC).
    destruct R as [(b & s1 & R1 & R2 & R3 & R4 & R5)|(fi & s1 & R1 & R2 & R3 & R4)]; rewrite R1 in H.
    + cbn [Z.eqb Z.ltb Z.compare] in H. change ((-1 =? -2)%Z) with false in H. cbv iota in H.
      injection H as <- <- <-. split; [exact R5|]. right. left.
      split; [reflexivity|]. split; [|exact R4].
      split; [reflexivity|]. split; [exact R3|]. split; [exact F|].
      right. split; [reflexivity|]. exists ds, wire. split; [exact W|]. split; [|exact Q].
      cbn. rewrite R2, W1, <- !app_assoc. reflexivity.
    + destruct W5 as [(-> & -> & ->)|(ds' & -> & ND & W')].
      * change (Z.of_N (len [])) with 0%Z in H. cbn [Z.eqb] in H.
        match type of H with (let '(_, _) := deliver ?R n in _) = _ => set (r1 := R) in H end.
        destruct (deliver r1 n) as [o1 r2] eqn:D. injection H as <- <- <-.
        apply (deliver_cinv body rest r1 s s1 n o1 r2 P); [|exact R4|left; reflexivity|exact D].
        split; [reflexivity|]. split; [exact R3|]. split; [exact F|].
        left. split; [reflexivity|]. split; [exact R2|]. rewrite Q. cbn. rewrite app_nil_r. reflexivity.
      * assert (LP : 0 < len d) by (destruct d; [congruence|unfold len; cbn [length]; lia]).
        replace (Z.of_N (len d) =? 0)%Z with false in H by lia.
        replace (Z.of_N (len d) <? 0)%Z with false in H by lia.
        match type of H with (let '(_, _) := deliver ?R n in _) = _ => set (r1 := R) in H end.
        assert (UD : user_data r1 = user_data r ++ [d]) by (unfold r1; destruct d; [congruence|reflexivity]).
        destruct (deliver r1 n) as [o1 r2] eqn:D. injection H as <- <- <-.
        apply (deliver_cinv body rest r1 s s1 n o1 r2 P); [|exact R4| |exact D].
        { split; [reflexivity|]. split; [exact R3|].
          split; [rewrite UD; apply Forall_app; split; [exact F|repeat constructor; exact ND]|].
          right. split; [reflexivity|]. exists ds', w. split; [exact W'|]. split; [exact R2|].
          rewrite UD, Q, concat_app. cbn. rewrite app_nil_r, <- app_assoc. reflexivity. }
        { right. rewrite UD. destruct (user_data r); discriminate. }
Qed.

Lemma consume_done : forall rest r s n o r' s', 0 < n ->
  CInv [] rest r s -> read_last_chunk r = true -> consume r s n = (o, r', s') ->
  o = Done /\ s' = s /\ buffered r' = buffered r /\ CInv [] rest r' s' /\ read_last_chunk r' = true.
Proof.
  intros rest r s n o r' s' P I L H. pose proof I as (C & O & F & J).
  unfold consume in H. rewrite C, L in H.
  destruct (deliver r n) as [o1 r1] eqn:D. injection H as <- <- <-.
  destruct (deliver_ok r n o1 r1 P F D) as (D1 & D2 & D3 & D4 & D5 & D6 & D7).
  destruct J as [(_ & E & Q)|(L' & _)]; [|congruence].
  assert (U : user_data r = []).
  { destruct (user_data r) as [|u us]; auto. inversion F; subst. destruct u; [congruence|discriminate]. }
  destruct D7 as [(U' & _)|(_ & Ho & U')]; [congruence|].
  split; [subst o1; unfold nothing; rewrite C, L; reflexivity|]. split; [reflexivity|].
  assert (B : buffered r1 = buffered r) by (unfold buffered; rewrite D1; reflexivity).
  split; [exact B|]. split; [|congruence].
  split; [congruence|]. split; [rewrite D1; exact O|]. split; [exact D6|].
  left. split; [congruence|]. split; [rewrite B; exact E|rewrite U'; reflexivity].
Qed.

Lemma consumes_done : forall rest lens r s os r' s', Forall (fun n => 0 < n) lens ->
  CInv [] rest r s -> read_last_chunk r = true -> consumes r s lens = (os, r', s') ->
  Forall (eq Done) os /\ length lens = length os /\ s' = s /\ buffered r' = buffered r.
Proof.
  induction lens as [|n lens IH]; intros r s os r' s' P I L H; cbn [consumes] in H.
  - injection H as <- <- <-. repeat split; constructor.
  - inversion P; subst.
    destruct (consume r s n) as [[o r1] s1] eqn:C.
    destruct (consume_done rest r s n o r1 s1) as (-> & -> & B & I1 & L1); auto.
    destruct (consumes r1 s lens) as [[os1 r2] s2] eqn:CS. injection H as <- <- <-.
    destruct (IH r1 s os1 r2 s2) as (A1 & A2 & -> & A4); auto.
    split; [constructor; auto|]. split; [cbn; lia|]. split; [reflexivity|congruence].
Qed.

Lemma consumes_chunked : forall rest lens body r s os r' s', Forall (fun n => 0 < n) lens ->
  CInv body rest r s -> ~ In Closed (answers s) -> consumes r s lens = (os, r', s') ->
  reads_body body lens os
  /\ (In Done os -> buffered r' ++ unread s' = rest)
  /\ (~ In Again (answers s) -> (length (unread s) <= length (answers s))%nat -> ~ In Wait os).
Proof.
  induction lens as [|n lens IH]; intros body r s os r' s' P I NC H; cbn [consumes] in H.
  - injection H as <- <- <-. split; [constructor|]. split; [intros []|]. intros _ _ [].
  - inversion P as [|? ? P1 P2]; subst.
    destruct (consume r s n) as [[o r1] s1] eqn:C.
    destruct (consumes r1 s1 lens) as [[os1 r2] s2] eqn:CS. injection H as <- <- <-.
    destruct (consume_chunked _ _ _ _ _ _ _ _ P1 I NC C)
      as [(pre & A) [(x & body' & -> & X1 & X2 & -> & I1 & Ad)|[(-> & I1 & St)|(-> & -> & L & I1 & Ad)]]].
    + assert (NC1 : ~ In Closed (answers s1))
        by (intros Q; apply NC; rewrite A; apply in_or_app; right; exact Q).
      destruct (IH body' r1 s1 os1 r2 s2) as (B1 & B2 & B3); auto.
      split; [constructor; auto|]. split.
      * intros [Q|Q]; [discriminate|auto].
      * intros NA LE [Q|Q]; [discriminate|]. apply B3 in Q; auto.
        { intros Z. apply NA. rewrite A. apply in_or_app. right. exact Z. }
        { destruct Ad as [_ Ad]. lia. }
    + assert (NC1 : ~ In Closed (answers s1))
        by (intros Q; apply NC; rewrite A; apply in_or_app; right; exact Q).
      destruct (IH body r1 s1 os1 r2 s2) as (B1 & B2 & B3); auto.
      split; [constructor; auto|]. split.
      * intros [Q|Q]; [discriminate|auto].
      * intros NA LE _. destruct St as [St|St]; [contradiction|lia].
    + destruct (consumes_done rest lens r1 s1 os1 r2 s2 P2 I1 L CS) as (D1 & D2 & -> & D4).
      split; [constructor; auto|]. split.
      * intros _. rewrite D4. destruct I1 as (_ & _ & _ & [(_ & E & _)|(L' & _)]); [exact E|congruence].
      * intros _ _ [Q|Q]; [discriminate|]. rewrite Forall_forall in D1. apply D1 in Q. discriminate.
Qed.

Lemma start_cinv : forall ds wire rest left s, chunk_wire ds wire ->
  left ++ unread s = wire ++ rest -> CInv (concat ds) rest (body_start true 0 left) s.
Proof.
  intros ds wire rest left s W E. split; [reflexivity|].
  split; [unfold body_start; destruct left; [exact I|apply N.le_refl]|].
  split; [constructor|]. right. split; [reflexivity|]. exists ds, wire.
  split; [exact W|]. split; [|reflexivity].
  replace (buffered (body_start true 0 left)) with left; [exact E|]. destruct left; reflexivity.
Qed.

Lemma reads_received : forall body lens os, reads_body body lens os ->
  (exists t, body = received os ++ t) /\ (In Done os -> received os = body).
Proof.
  induction 1.
  - split; [exists body; reflexivity|intros []].
  - destruct IHreads_body as [[t T] D]. cbn. split.
    + exists t. rewrite <- app_assoc, <- T. reflexivity.
    + intros [Q|Q]; [discriminate|]. rewrite D; auto.
  - destruct IHreads_body as [[t T] D]. cbn. split; [exists t; exact T|].
    intros [Q|Q]; [discriminate|auto].
  - assert (received os = []).
    { clear H. induction H0; auto. subst x. cbn. exact IHForall. }
    cbn. rewrite H1. split; [exists []; reflexivity|reflexivity].
Qed.

Lemma reads_complete : forall body lens os, reads_body body lens os ->
  ~ In Wait os -> (length body < length lens)%nat -> In Done os.
Proof.
  induction 1; intros NW L.
  - cbn in L. lia.
  - right. apply IHreads_body.
    + intros Q. apply NW. right. exact Q.
    + rewrite app_length in L. cbn in L. destruct x; [congruence|]. cbn in L. lia.
  - exfalso. apply NW. left. reflexivity.
  - left. reflexivity.
Qed.
